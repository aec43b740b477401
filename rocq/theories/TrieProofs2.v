(** Proofs about the trie: well-formed trees, their content and lookup. *)
From Verif Require Import Base TrieModel TrieSpec TrieProofs.
From Coq Require Import Sorted.

Section Ind.
  Lemma node_ind2 : forall P : node -> Prop,
    (forall k v, P (Leaf k v)) ->
    (forall i b tw, Forall P tw -> P (Branch i b tw)) ->
    forall t, P t.
  Proof.
    intros P HL HB. fix IH 1. intros [k v|i b tw]; [apply HL|]. apply HB. induction tw as [|c tw IHt]; constructor; auto.
  Qed.
End Ind.

(** the content of a tree, from left to right *)
Fixpoint elems (t : node) : list (list Z * Z) :=
  match t with
  | Leaf k v => [(k, v)]
  | Branch _ _ tw => flat_map elems tw
  end.
Definition keys (t : node) : list (list Z) := map fst (elems t).

Lemma keys_branch : forall i b tw k, In k (keys (Branch i b tw)) <-> exists c, In c tw /\ In k (keys c).
Proof.
  intros. unfold keys. cbn [elems]. rewrite in_map_iff. split.
  - intros ([k' v] & <- & H). apply in_flat_map in H. destruct H as (c & H1 & H2). exists c. split; auto. apply in_map_iff. exists (k', v). auto.
  - intros (c & H1 & H2). apply in_map_iff in H2. destruct H2 as ([k' v] & <- & H2). exists (k', v). split; auto. apply in_flat_map. eauto.
Qed.

(** [wf t]: the twigs of a branch correspond to the bits, there are at least two; the keys below twig d
    have nibble d at the index and all keys agree before the index. *)
Fixpoint wf (t : node) : Prop :=
  match t with
  | Leaf k _ => key_ok k
  | Branch i b tw =>
    0 <= i /\ okbmp b /\ 2 <= zlen tw /\
    Forall2 (fun d c => forall k, In k (keys c) -> nib k i = d) (digits b) tw /\
    (forall k1 k2, In k1 (keys t) -> In k2 (keys t) -> agree i k1 k2) /\
    fold_right (fun c P => wf c /\ P) True tw
  end.
Lemma wf_children : forall tw, fold_right (fun c P => wf c /\ P) True tw <-> Forall wf tw.
Proof. induction tw as [|c tw IH]; cbn; split; auto. - intros [H1 H2]. constructor; tauto. - intros H. inversion H; subst. tauto. Qed.

Lemma wf_nonempty : forall t, wf t -> elems t <> [].
Proof.
  induction t as [k v|i b tw IH] using node_ind2; intros W; [cbn; congruence|]. destruct W as (_ & _ & L & _ & _ & C).
  apply wf_children in C. destruct tw as [|c tw]; [rewrite zlen_nil in L; lia|]. inversion C; subst. inversion IH; subst. cbn.
  specialize (H3 H1). destruct (elems c); [congruence|]. cbn. congruence.
Qed.
Lemma wf_key : forall t, wf t -> exists k, In k (keys t).
Proof. intros t W. pose proof (wf_nonempty t W). unfold keys. destruct (elems t) as [|[k v] l]; [congruence|]. exists k. cbn. auto. Qed.
Lemma wf_keys_ok : forall t k, wf t -> In k (keys t) -> key_ok k.
Proof.
  induction t as [k0 v|i b tw IH] using node_ind2; intros k W H.
  - cbn in H. destruct H as [->|[]]. exact W.
  - apply keys_branch in H. destruct H as (c & H1 & H2). destruct W as (_ & _ & _ & _ & _ & C). apply wf_children in C.
    rewrite Forall_forall in IH, C. eauto.
Qed.
Lemma wf_bytes : forall t k, wf t -> In k (keys t) -> bytes k.
Proof. intros. eapply wf_keys_ok in H0; eauto. apply H0. Qed.

(** *** access to branches *)
Lemma Forall2_length : forall {A B} (R : A -> B -> Prop) l l', Forall2 R l l' -> length l = length l'.
Proof. induction 1; cbn; auto. Qed.
Lemma Forall2_zlen : forall {A B} (R : A -> B -> Prop) l l', Forall2 R l l' -> zlen l = zlen l'.
Proof. intros. unfold zlen. f_equal. eapply Forall2_length; eauto. Qed.
Lemma wf_weight : forall i b tw, wf (Branch i b tw) -> branch_weight (Branch i b tw) = Ok (zlen tw).
Proof.
  intros i b tw (_ & K & L & F & _). cbn [branch_weight]. rewrite popcount_digits by auto. cbv zeta. rewrite (Forall2_zlen _ _ _ F).
  pose proof (digits_17 b) as D. rewrite (Forall2_zlen _ _ _ F) in D. unfold TWIDTH_BMP. replace ((1 <? zlen tw) && (zlen tw <=? 17)) with true by lia. reflexivity.
Qed.
Lemma wf_hastwig : forall i b tw d, 0 <= d <= 16 -> hastwig (Branch i b tw) (bitof d) = Ok (Z.testbit b (d + 2)).
Proof.
  intros i b tw d H. cbn [hastwig]. rewrite okbmp_mask by (apply okbmp_bitof; auto). rewrite popcount_bitof by auto. cbn [andb].
  rewrite has_bit by lia. reflexivity.
Qed.
Lemma wf_twigoff : forall i b tw d, okbmp b -> 0 <= d <= 16 -> twigoff (Branch i b tw) (bitof d) = Ok (zlen (low b d)).
Proof. intros i b tw d K H. cbn [twigoff]. rewrite popcount_bitof, popcount_below by auto. reflexivity. Qed.
Lemma wf_twig : forall i b tw j c, wf (Branch i b tw) -> zget tw j = Some c -> twig (Branch i b tw) j = Ok c.
Proof.
  intros i b tw j c W G. unfold twig. rewrite wf_weight by auto. cbn [rbind twigs]. pose proof (zget_some _ _ _ G).
  replace (j <? zlen tw) with true by lia. cbn [negb]. rewrite G. reflexivity.
Qed.
Lemma wf_child : forall i b tw c, wf (Branch i b tw) -> In c tw -> wf c.
Proof. intros i b tw c (_ & _ & _ & _ & _ & C) H. apply wf_children in C. rewrite Forall_forall in C. auto. Qed.

Lemma Forall2_zget : forall {A B} (R : A -> B -> Prop) l l' j c, Forall2 R l l' -> zget l' j = Some c -> exists d, zget l j = Some d /\ R d c.
Proof.
  intros A B R l l' j c F. revert j. induction F as [|x y l l' H F IH]; intros j G.
  - apply zget_some in G. rewrite zlen_nil in G. lia.
  - pose proof (zget_some _ _ _ G). destruct (Z.eq_dec j 0) as [->|].
    + rewrite zget_0 in *. inversion G; subst. eauto.
    + rewrite zget_cons in G by lia. destruct (IH _ G) as (d & E & Rd). exists d. rewrite zget_cons by lia. auto.
Qed.
Lemma Forall2_zget_l : forall {A B} (R : A -> B -> Prop) l l' j d, Forall2 R l l' -> zget l j = Some d -> exists c, zget l' j = Some c /\ R d c.
Proof.
  intros A B R l l' j c F. revert j. induction F as [|x y l l' H F IH]; intros j G.
  - apply zget_some in G. rewrite zlen_nil in G. lia.
  - pose proof (zget_some _ _ _ G). destruct (Z.eq_dec j 0) as [->|].
    + rewrite zget_0 in *. inversion G; subst. eauto.
    + rewrite zget_cons in G by lia. destruct (IH _ G) as (d & E & Rd). exists d. rewrite zget_cons by lia. auto.
Qed.

(** the digit of a twig *)
Lemma wf_digit : forall i b tw j c, wf (Branch i b tw) -> zget tw j = Some c ->
  exists d, zget (digits b) j = Some d /\ 0 <= d <= 16 /\ Z.testbit b (d + 2) = true /\ (forall k, In k (keys c) -> nib k i = d).
Proof.
  intros i b tw j c (_ & _ & _ & F & _) G. destruct (Forall2_zget _ _ _ _ _ F G) as (d & E & R). exists d. split; [auto|].
  apply zget_In in E. apply digits_In in E. tauto.
Qed.
(** the twig of a digit *)
Lemma wf_has : forall i b tw d, wf (Branch i b tw) -> 0 <= d <= 16 -> Z.testbit b (d + 2) = true ->
  exists c, zget tw (zlen (low b d)) = Some c /\ (forall k, In k (keys c) -> nib k i = d).
Proof.
  intros i b tw d (_ & _ & _ & F & _) H E. assert (G : zget (digits b) (zlen (low b d)) = Some d).
  { rewrite (digits_split b d H), E. rewrite zget_app_r by lia. rewrite Z.sub_diag. reflexivity. }
  destruct (Forall2_zget_l _ _ _ _ _ F G) as (c & Gc & R). eauto.
Qed.
(** a digit determines the position *)
Lemma digits_pos : forall b j d, zget (digits b) j = Some d -> j = zlen (low b d).
Proof.
  intros b j d G. assert (H : 0 <= d <= 16 /\ Z.testbit b (d + 2) = true) by (apply digits_In; eapply zget_In; eauto). destruct H as [H E].
  pose proof (digits_sorted b) as S. rewrite (digits_split b d H), E in G.
  pose proof (zlen_nonneg (low b d)). destruct (Z.lt_trichotomy j (zlen (low b d))) as [L|[->|L]]; [|reflexivity|].
  - rewrite zget_app_l in G by lia. apply zget_In in G. unfold low in G. apply filter_In in G. lia.
  - rewrite zget_app_r in G by lia. cbn [app] in G. rewrite zget_cons in G by lia. apply zget_In in G. unfold high in G. apply filter_In in G. lia.
Qed.
(** children split at a digit *)
Lemma wf_split : forall i b tw d, wf (Branch i b tw) -> 0 <= d <= 16 ->
  exists l1 m l2, tw = l1 ++ m ++ l2 /\ zlen l1 = zlen (low b d) /\
    Forall2 (fun d c => forall k, In k (keys c) -> nib k i = d) (low b d) l1 /\
    Forall2 (fun d c => forall k, In k (keys c) -> nib k i = d) (high b d) l2 /\
    match m with [] => Z.testbit b (d + 2) = false | [c] => Z.testbit b (d + 2) = true /\ forall k, In k (keys c) -> nib k i = d | _ => False end.
Proof.
  intros i b tw d (_ & _ & _ & F & _) H. rewrite (digits_split b d H) in F. apply Forall2_app_inv_l in F. destruct F as (l1 & l' & F1 & F2 & ->).
  apply Forall2_app_inv_l in F2. destruct F2 as (m & l2 & F2 & F3 & ->). exists l1, m, l2. split; [reflexivity|]. split; [symmetry; eapply Forall2_zlen; eauto|].
  split; [auto|]. split; [auto|]. destruct (Z.testbit b (d + 2)).
  - inversion F2; subst. inversion H4; subst. auto.
  - inversion F2; subst. auto.
Qed.

Lemma height_child : forall i b tw c, In c tw -> (height c < height (Branch i b tw))%nat.
Proof.
  intros i b tw c H. cbn [height]. induction tw as [|x tw IH]; [destruct H|]. cbn [fold_right]. destruct H as [->|H]; [lia|]. specialize (IH H). lia.
Qed.

(** the index grows on the way down *)
Lemma wf_index : forall i b tw j b' tw', wf (Branch i b tw) -> In (Branch j b' tw') tw -> i < j.
Proof.
  intros i b tw j b' tw' W H. pose proof (wf_child _ _ _ _ W H) as W'. pose proof W as (Hi & _ & _ & F & A & _).
  pose proof W' as (Hj & Kb & L & F' & _ & C'). apply wf_children in C'.
  destruct (Z.lt_ge_cases i j) as [|G]; [auto|]. exfalso.
  (* two keys with different nibbles at j *)
  destruct tw' as [|c1 [|c2 tw']]; rewrite ?zlen_cons, ?zlen_nil in L; try lia.
  destruct (digits b') as [|d1 [|d2 ds]] eqn:Ed; try (apply Forall2_zlen in F'; rewrite ?zlen_cons, ?zlen_nil in F'; pose proof (zlen_nonneg tw'); lia).
  inversion F' as [|? ? ? ? R1 F1]; subst. inversion F1 as [|? ? ? ? R2 F2]; subst.
  assert (d1 < d2). { pose proof (digits_sorted b') as S. rewrite Ed in S. inversion S as [|? ? ? S2]; subst. inversion S2; subst. auto. }
  inversion C' as [|? ? C1 C2]; subst. inversion C2 as [|? ? C3 C4]; subst. destruct (wf_key c1 C1) as [k1 K1]. destruct (wf_key c2 C3) as [k2 K2].
  assert (I1 : In k1 (keys (Branch j b' (c1 :: c2 :: tw')))) by (apply keys_branch; exists c1; cbn; auto).
  assert (I2 : In k2 (keys (Branch j b' (c1 :: c2 :: tw')))) by (apply keys_branch; exists c2; cbn; auto).
  pose proof (R1 _ K1) as N1. pose proof (R2 _ K2) as N2.
  destruct (Z.eq_dec i j) as [->|].
  - apply In_nth_error in H. destruct H as [n Hn]. assert (G' : zget tw (Z.of_nat n) = Some (Branch j b' (c1 :: c2 :: tw'))).
    { unfold zget. replace (Z.of_nat n <? 0) with false by lia. rewrite Nat2Z.id. auto. }
    destruct (wf_digit _ _ _ _ _ W G') as (d & _ & _ & _ & R). rewrite (R _ I1) in N1. rewrite (R _ I2) in N2. lia.
  - assert (X : agree i k1 k2). { apply A; apply keys_branch; eexists; split; eauto. } specialize (X j ltac:(lia)). lia.
Qed.

(** *** order *)
Definition kvlt (a b : list Z * Z) : Prop := klt (fst a) (fst b).
Lemma sorted_app : forall {A} (R : A -> A -> Prop) l1 l2, StronglySorted R l1 -> StronglySorted R l2 ->
  (forall x y, In x l1 -> In y l2 -> R x y) -> StronglySorted R (l1 ++ l2).
Proof.
  induction l1 as [|x l1 IH]; intros l2 S1 S2 H; cbn; auto. inversion S1; subst. constructor.
  - apply IH; auto. intros; apply H; cbn; auto.
  - rewrite Forall_forall in *. intros y Hy. apply in_app_iff in Hy. destruct Hy; [auto|]. apply H; cbn; auto.
Qed.
Lemma sorted_app_inv : forall {A} (R : A -> A -> Prop) l1 l2, StronglySorted R (l1 ++ l2) ->
  StronglySorted R l1 /\ StronglySorted R l2 /\ (forall x y, In x l1 -> In y l2 -> R x y).
Proof.
  induction l1 as [|x l1 IH]; intros l2 S; cbn in *.
  - split; [constructor|]. split; [auto|]. intros x y [].
  - inversion S; subst. destruct (IH _ H1) as (A1 & A2 & A3). rewrite Forall_forall in H2. split; [|split].
    + constructor; auto. rewrite Forall_forall. intros; apply H2. apply in_app_iff; auto.
    + auto.
    + intros a c [->|Ha] Hc; [apply H2; apply in_app_iff; auto|auto].
Qed.
Lemma in_keys : forall t k v, In (k, v) (elems t) -> In k (keys t).
Proof. intros. unfold keys. apply in_map_iff. exists (k, v). auto. Qed.
Lemma elems_sorted : forall t, wf t -> StronglySorted kvlt (elems t).
Proof.
  induction t as [k v|i b tw IH] using node_ind2; intros W; [repeat constructor|].
  pose proof W as (Hi & _ & _ & F & A & C). apply wf_children in C. cbn [elems]. pose proof (digits_sorted b) as S.
  assert (A' : forall k1 k2, (exists c, In c tw /\ In k1 (keys c)) -> (exists c, In c tw /\ In k2 (keys c)) -> agree i k1 k2).
  { intros. apply A; apply keys_branch; auto. }
  assert (B : forall k, (exists c, In c tw /\ In k (keys c)) -> bytes k).
  { intros k Hk. eapply wf_bytes; [exact W|]. apply keys_branch. auto. }
  clear W A. revert S IH C A' B. induction F as [|d c ds tw Fd F IHF]; intros S IH C A' B; cbn [flat_map]; [constructor|].
  inversion S; subst. inversion IH; subst. inversion C; subst. apply sorted_app.
  - auto.
  - apply IHF; auto. + intros k1 k2 (c1 & I1 & J1) (c2 & I2 & J2). apply A'; [exists c1|exists c2]; cbn; auto. + intros k (c' & I1 & J1). apply B. exists c'. cbn; auto.
  - intros [k1 v1] [k2 v2] I1 I2. unfold kvlt. cbn [fst]. apply in_keys in I1. apply in_flat_map in I2. destruct I2 as (c' & Ic & I2). apply in_keys in I2.
    assert (X1 : exists c0, In c0 (c :: tw) /\ In k1 (keys c0)) by (exists c; cbn; auto). assert (X2 : exists c0, In c0 (c :: tw) /\ In k2 (keys c0)) by (exists c'; cbn; auto).
    apply nlt_klt; auto. exists i. split; [auto|]. split; [apply A'; auto|]. rewrite (Fd _ I1).
    assert (exists d', In d' ds /\ nib k2 i = d') as (d' & Hd & ->).
    { clear - F Ic I2. induction F as [|d' c0 ds tw R F IH]; [destruct Ic|]. destruct Ic as [->|Ic]; [exists d'; split; [cbn; auto|apply R; auto]|]. destruct (IH Ic) as (e & He & Ee). exists e. cbn. auto. }
    rewrite Forall_forall in H2. auto.
Qed.

(** *** lookup *)
Lemma low_lt : forall b d x, In x (low b d) -> x < d.
Proof. intros b d x H. unfold low in H. apply filter_In in H. lia. Qed.
Lemma high_gt : forall b d x, In x (high b d) -> d < x.
Proof. intros b d x H. unfold high in H. apply filter_In in H. lia. Qed.

Lemma flat_split : forall (tw : list node) j c, zget tw j = Some c ->
  flat_map elems tw = flat_map elems (zfirstn j tw) ++ elems c ++ flat_map elems (zskipn (j + 1) tw).
Proof.
  intros tw j c G. pose proof (zget_some _ _ _ G) as R. unfold zget in G. destruct (j <? 0) eqn:E; [lia|].
  apply nth_error_split in G. destruct G as (l1 & l2 & -> & L). unfold zfirstn, zskipn. rewrite <- L.
  rewrite firstn_app, firstn_all, Nat.sub_diag, firstn_O, app_nil_r. replace (Z.to_nat (j + 1)) with (S (length l1)) by lia.
  replace (skipn (S (length l1)) (l1 ++ c :: l2)) with l2; [rewrite flat_map_app; reflexivity|].
  rewrite skipn_app. rewrite skipn_all2 by lia. replace (S (length l1) - length l1)%nat with 1%nat by lia. reflexivity.
Qed.

(** the leaf at an address *)
Fixpoint leaf_at (t : node) (p : path) : option (list Z * Z) :=
  match p, t with
  | [], Leaf k v => Some (k, v)
  | i :: p, Branch _ _ tw => match zget tw i with Some c => leaf_at c p | None => None end
  | _, _ => None
  end.
Lemma leaf_at_in : forall p t e, leaf_at t p = Some e -> In e (elems t).
Proof.
  induction p as [|i p IH]; intros [k v|x b tw] e H; cbn in H; try discriminate.
  - inversion H. cbn. auto.
  - destruct (zget tw i) as [c|] eqn:G; [|discriminate]. cbn. apply in_flat_map. exists c. split; [eapply zget_In; eauto|auto].
Qed.
Lemma val_at_leaf : forall p t k v, leaf_at t p = Some (k, v) -> val_at t p = Ok v.
Proof.
  induction p as [|i p IH]; intros [k0 v0|x b tw] k v H; cbn in *; try discriminate.
  - inversion H. auto.
  - destruct (zget tw i) as [c|]; [|discriminate]. eauto.
Qed.

Lemma get_loop_spec : forall fuel t key, wf t -> bytes key -> (height t <= fuel)%nat ->
  exists r, get_loop fuel t key = Ok r /\
    match r with
    | None => ~ In key (keys t)
    | Some (p, l) => exists k v, l = Leaf k v /\ leaf_at t p = Some (k, v) /\ (In key (keys t) -> key = k)
    end.
Proof.
  induction fuel as [|fuel IH]; intros t key W B Hf; [destruct t; cbn in Hf; lia|]. cbn [get_loop]. destruct t as [k v|i b tw]; cbn [isbranch].
  - eexists. split; [reflexivity|]. exists k, v. split; [auto|]. split; [reflexivity|]. unfold keys. cbn. intros [E|[]]; auto.
  - pose proof W as (Hi & K & _). unfold twigbit. cbn [branch_index rbind]. rewrite keybit_nib by auto. pose proof (nib_range key i B) as R.
    rewrite wf_hastwig by auto. cbn [rbind]. destruct (Z.testbit b (nib key i + 2)) eqn:E; cbn [negb].
    + rewrite wf_twigoff by auto. cbn [rbind]. destruct (wf_has _ _ _ _ W R E) as (c & G & Rc). rewrite (wf_twig _ _ _ _ _ W G). cbn [rbind].
      pose proof (zget_In _ _ _ G) as Ic. destruct (IH c key) as (r & Er & Sr); [eapply wf_child; eauto|auto|pose proof (height_child i b tw c Ic); lia|].
      rewrite Er. cbn [rbind]. eexists. split; [reflexivity|].
      assert (X : In key (keys (Branch i b tw)) -> In key (keys c)).
      { intros H. apply keys_branch in H. destruct H as (c' & Ic' & H). apply In_nth_error in Ic'. destruct Ic' as [n Hn].
        assert (G' : zget tw (Z.of_nat n) = Some c') by (unfold zget; replace (Z.of_nat n <? 0) with false by lia; rewrite Nat2Z.id; auto).
        destruct (wf_digit _ _ _ _ _ W G') as (d & Gd & _ & _ & Rd). specialize (Rd _ H). subst d. apply digits_pos in Gd.
        rewrite <- Gd in G. rewrite G in G'. inversion G'; subst. auto. }
      destruct r as [[p l]|].
      * destruct Sr as (k & v & -> & L & Q). exists k, v. split; [auto|]. split; [cbn [leaf_at]; rewrite G; exact L|auto].
      * auto.
    + eexists. split; [reflexivity|]. intros H. apply keys_branch in H. destruct H as (c' & Ic' & H). apply In_nth_error in Ic'. destruct Ic' as [n Hn].
      assert (G' : zget tw (Z.of_nat n) = Some c') by (unfold zget; replace (Z.of_nat n <? 0) with false by lia; rewrite Nat2Z.id; auto).
      destruct (wf_digit _ _ _ _ _ W G') as (d & _ & _ & Ed & Rd). specialize (Rd _ H). congruence.
Qed.

(** well-formed tries *)
Definition twf (t : trie) : Prop :=
  (t_weight t = 0 /\ t_root t = empty_root) \/ (wf (t_root t) /\ t_weight t = zlen (elems (t_root t))).
Definition content (t : trie) : list (list Z * Z) := if t_weight t =? 0 then [] else elems (t_root t).
Lemma wf_weight_pos : forall t, wf t -> 0 < zlen (elems t).
Proof. intros t W. pose proof (wf_nonempty t W). destruct (elems t); [congruence|]. rewrite zlen_cons. pose proof (zlen_nonneg l). lia. Qed.
Lemma content_sorted : forall t, twf t -> StronglySorted kvlt (content t).
Proof.
  intros t [[H _]|[W H]]; unfold content.
  - rewrite H. constructor.
  - pose proof (wf_weight_pos _ W). replace (t_weight t =? 0) with false by lia. apply elems_sorted; auto.
Qed.
Lemma sorted_fun : forall l k v1 v2, StronglySorted kvlt l -> In (k, v1) l -> In (k, v2) l -> v1 = v2.
Proof.
  induction l as [|[k v] l IH]; intros k0 v1 v2 S H1 H2; [destruct H1|]. inversion S; subst. rewrite Forall_forall in H4.
  destruct H1 as [E1|H1], H2 as [E2|H2].
  - congruence.
  - inversion E1; subst. apply H4 in H2. unfold kvlt in H2. cbn in H2. apply klt_irrefl in H2. tauto.
  - inversion E2; subst. apply H4 in H1. unfold kvlt in H1. cbn in H1. apply klt_irrefl in H1. tauto.
  - eauto.
Qed.

Lemma get_try_spec : forall t key, twf t -> bytes key ->
  (exists p v, trie_get_try t key = Ok (Some p) /\ leaf_at (t_root t) p = Some (key, v) /\ In (key, v) (content t)) \/
  (trie_get_try t key = Ok None /\ forall v, ~ In (key, v) (content t)).
Proof.
  intros t key T B. unfold trie_get_try, content. destruct T as [[H _]|[W H]].
  - rewrite H. cbn. right. auto.
  - pose proof (wf_weight_pos _ W). replace (t_weight t =? 0) with false by lia.
    destruct (get_loop_spec (height (t_root t)) (t_root t) key W B (le_n _)) as (r & -> & S). cbn [rbind]. destruct r as [[p l]|].
    + destruct S as (k & v & -> & L & Q). cbn [tkey rbind]. pose proof (leaf_at_in _ _ _ L) as I. assert (Bk : bytes k) by (eapply wf_bytes; [exact W|eapply in_keys; eauto]).
      destruct (key_cmp key k =? 0) eqn:E; cbn [negb].
      * apply key_cmp_eq in E; auto. subst k. left. exists p, v. auto.
      * right. split; [auto|]. intros v' I'. apply in_keys in I'. apply Q in I'. subst k. assert (X : (key_cmp key key =? 0) = true) by (apply key_cmp_eq; auto). congruence.
    + right. split; [auto|]. intros v' I'. apply in_keys in I'. auto.
Qed.

(** *** writing a value *)
Lemma zset_split : forall (tw : list node) j c c', zget tw j = Some c -> flat_map elems (zset tw j c') = flat_map elems (zfirstn j tw) ++ elems c' ++ flat_map elems (zskipn (j + 1) tw).
Proof. intros. unfold zset. rewrite flat_map_app. reflexivity. Qed.
Lemma zset_Forall2 : forall {A B} (R : A -> B -> Prop) l l' j c c', Forall2 R l l' -> zget l' j = Some c -> (forall d, zget l j = Some d -> R d c -> R d c') -> Forall2 R l (zset l' j c').
Proof.
  intros A B R l l' j c c' F G H. pose proof (zget_some _ _ _ G) as Rg. unfold zget in G, H. destruct (j <? 0) eqn:E; [lia|].
  apply nth_error_split in G. destruct G as (l1 & l2 & -> & L). apply Forall2_app_inv_r in F. destruct F as (d1 & d2 & F1 & F2 & ->). inversion F2; subst.
  unfold zset, zfirstn, zskipn. rewrite <- L. rewrite firstn_app, firstn_all, Nat.sub_diag, firstn_O, app_nil_r. replace (Z.to_nat (j + 1)) with (S (length l1)) by lia.
  replace (skipn (S (length l1)) (l1 ++ c :: l2)) with l2.
  - apply Forall2_app; auto. constructor; auto. apply H; auto. rewrite <- L. rewrite nth_error_app2; rewrite (Forall2_length _ _ _ F1); auto. rewrite Nat.sub_diag. reflexivity.
  - rewrite skipn_app. rewrite skipn_all2 by lia. replace (S (length l1) - length l1)%nat with 1%nat by lia. reflexivity.
Qed.
Lemma zset_In : forall {A} (l : list A) j c x, In x (zset l j c) -> x = c \/ In x l.
Proof.
  intros A l j c x H. unfold zset, zfirstn, zskipn in H. apply in_app_iff in H. rewrite <- (firstn_skipn (Z.to_nat j) l). destruct H as [H|[->|H]]; auto.
  - right. apply in_app_iff. auto.
  - right. rewrite (firstn_skipn (Z.to_nat j) l). rewrite <- (firstn_skipn (Z.to_nat (j + 1)) l). apply in_app_iff. auto.
Qed.

(** replacing one child *)
Lemma wf_replace : forall i b tw j c c', wf (Branch i b tw) -> zget tw j = Some c -> wf c' ->
  (forall k, In k (keys c') -> exists k0, In k0 (keys c) /\ agree (i + 1) k k0) ->
  wf (Branch i b (zset tw j c')).
Proof.
  intros i b tw j c c' W G W' H. pose proof W as (Hi & K & L & F & A & C). apply wf_children in C. pose proof (zget_some _ _ _ G) as Rg.
  assert (X : forall k, In k (keys (Branch i b (zset tw j c'))) -> exists k0, In k0 (keys (Branch i b tw)) /\ agree (i + 1) k k0).
  { intros k Hk. apply keys_branch in Hk. destruct Hk as (x & Ix & Hk). apply zset_In in Ix. destruct Ix as [->|Ix].
    - destruct (H _ Hk) as (k0 & H0 & A0). exists k0. split; [apply keys_branch; exists c; split; [eapply zget_In; eauto|auto]|auto].
    - exists k. split; [apply keys_branch; eauto|apply agree_refl]. }
  cbn [wf]. split; [auto|]. split; [auto|]. split; [rewrite zlen_zset; auto|]. split; [|split].
  - eapply zset_Forall2; eauto. intros d Gd R k Hk. destruct (H _ Hk) as (k0 & H0 & A0). rewrite (A0 i) by lia. auto.
  - intros k1 k2 H1 H2. destruct (X _ H1) as (x1 & I1 & A1). destruct (X _ H2) as (x2 & I2 & A2).
    eapply agree_trans; [eapply agree_le; [|exact A1]; lia|]. eapply agree_trans; [apply A; eauto|]. apply agree_sym. eapply agree_le; [|exact A2]. lia.
  - apply wf_children. rewrite Forall_forall in *. intros x Hx. apply zset_In in Hx. destruct Hx as [->|Hx]; auto.
Qed.

Lemma write_at_spec : forall p t k v0 v, wf t -> leaf_at t p = Some (k, v0) ->
  exists t' l1 l2, write_at t p v = Ok t' /\ wf t' /\ elems t = l1 ++ (k, v0) :: l2 /\ elems t' = l1 ++ (k, v) :: l2 /\ leaf_at t' p = Some (k, v).
Proof.
  induction p as [|i p IH]; intros [k0 w|x b tw] k v0 v W L; cbn in L; try discriminate.
  - inversion L; subst. exists (Leaf k v), [], []. cbn. auto.
  - destruct (zget tw i) as [c|] eqn:G; [|discriminate]. pose proof (zget_In _ _ _ G) as Ic. pose proof (zget_some _ _ _ G) as Rg.
    destruct (IH c k v0 v (wf_child _ _ _ _ W Ic) L) as (c' & l1 & l2 & E & W' & E1 & E2 & L').
    cbn [write_at]. rewrite G, E. cbn [rbind]. exists (Branch x b (zset tw i c')), (flat_map elems (zfirstn i tw) ++ l1), (l2 ++ flat_map elems (zskipn (i + 1) tw)).
    split; [reflexivity|]. split.
    { eapply wf_replace; eauto. intros k1 H1. exists k1. split; [|apply agree_refl]. unfold keys in *. rewrite E1. rewrite E2 in H1. rewrite map_app in *. exact H1. }
    split; [|split].
    + cbn [elems]. rewrite (flat_split _ _ _ G), E1. rewrite <- !app_assoc. reflexivity.
    + cbn [elems]. rewrite (zset_split _ _ _ c' G), E2. rewrite <- !app_assoc. reflexivity.
    + cbn [leaf_at]. rewrite zget_zset by lia. rewrite Z.eqb_refl. exact L'.
Qed.
