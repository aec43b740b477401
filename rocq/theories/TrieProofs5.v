(** Proofs about the trie: iteration and the less-or-equal search. *)
From Verif Require Import Base TrieModel TrieSpec TrieProofs TrieProofs2 TrieProofs3 TrieProofs4.
From Coq Require Import Sorted.

Lemma bef_down : forall ci c j i b tw up, bef ((ci, c) :: (j, Branch i b tw) :: up) = bef ((j, Branch i b tw) :: up) ++ flat_map elems (zfirstn ci tw).
Proof. reflexivity. Qed.
Lemma aft_down : forall ci c j i b tw up, aft ((ci, c) :: (j, Branch i b tw) :: up) = flat_map elems (zskipn (ci + 1) tw) ++ aft ((j, Branch i b tw) :: up).
Proof. reflexivity. Qed.

(** the stack stands at leaf e with l1 before and l2 after it *)
Definition stands (root : node) (ns : nstack) (e : list Z * Z) (l1 l2 : list (list Z * Z)) : Prop :=
  chain root (ns_st ns) /\ (exists ci up, ns_st ns = (ci, Leaf (fst e) (snd e)) :: up) /\ bef (ns_st ns) = l1 /\ aft (ns_st ns) = l2.
Lemma stands_elems : forall root ns e l1 l2, stands root ns e l1 l2 -> elems root = l1 ++ e :: l2.
Proof.
  intros root ns [k v] l1 l2 (C & (ci & up & E) & B & A). cbn [fst snd] in E. rewrite E in C. rewrite (chain_elems _ _ _ _ C), <- E, B, A. reflexivity.
Qed.

Lemma zskipn_all : forall {A} (l : list A) n, zlen l <= n -> zskipn n l = [].
Proof. intros A l n H. unfold zskipn, zlen in *. apply skipn_all2. lia. Qed.

Lemma last_leaf_spec : forall a root, wf root -> forall fuel ci t up n, chain root ((ci, t) :: up) -> (height t <= fuel)%nat ->
  (exists ns e l1, last_leaf a fuel (mkns ((ci, t) :: up) n) = Ok ns /\ stands root ns e l1 (aft ((ci, t) :: up)) /\ l1 ++ [e] = bef ((ci, t) :: up) ++ elems t) \/
  (last_leaf a fuel (mkns ((ci, t) :: up) n) = Err KNOT_ENOMEM /\ nomem a).
Proof.
  intros a root W. induction fuel as [|fuel IH]; intros ci t up n C Hf; [destruct t; cbn in Hf; lia|]. cbn [last_leaf].
  destruct (ns_longer_spec a (mkns ((ci, t) :: up) n)) as [[n1 ->]|[-> M]]; cbn [rbind]; [|right; auto]. cbn [ns_top ns_st rbind].
  destruct t as [k v|i b tw]; cbn [isbranch negb].
  - left. exists (mkns ((ci, Leaf k v) :: up) n1), (k, v), (bef ((ci, Leaf k v) :: up)). split; [reflexivity|]. split; [|reflexivity].
    split; [exact C|]. split; [exists ci, up; reflexivity|]. split; reflexivity.
  - pose proof (chain_top_wf _ _ _ _ W C) as Wt. rewrite wf_weight by auto. cbn [rbind]. pose proof Wt as (_ & _ & L & _).
    destruct (zget_in_range tw (zlen tw - 1) ltac:(lia)) as [c G]. unfold ns_push. rewrite (wf_twig _ _ _ _ _ Wt G). cbn [rbind ns_st ns_alen].
    pose proof (height_child i b tw c (zget_In _ _ _ G)).
    destruct (IH (zlen tw - 1) c ((ci, Branch i b tw) :: up) n1) as [(ns & e & l1 & E & S & Q)|[E M]]; [econstructor; eauto|lia| |right; auto].
    assert (X : zskipn (zlen tw - 1 + 1) tw = []) by (apply zskipn_all; lia).
    left. exists ns, e, l1. split; [exact E|]. rewrite aft_down, X in S. cbn [flat_map app] in S. split; [exact S|].
    rewrite Q, bef_down. cbn [elems]. rewrite (flat_split _ _ _ G), X. cbn [flat_map]. rewrite app_nil_r, app_assoc. reflexivity.
Qed.
Lemma ns_last_leaf_spec : forall a root ci t up n, wf root -> chain root ((ci, t) :: up) ->
  (exists ns e l1, ns_last_leaf a (mkns ((ci, t) :: up) n) = Ok ns /\ stands root ns e l1 (aft ((ci, t) :: up)) /\ l1 ++ [e] = bef ((ci, t) :: up) ++ elems t) \/
  (ns_last_leaf a (mkns ((ci, t) :: up) n) = Err KNOT_ENOMEM /\ nomem a).
Proof. intros. unfold ns_last_leaf. cbn [ns_top ns_st rbind]. apply last_leaf_spec; auto. Qed.

Lemma first_leaf_spec : forall a root, wf root -> forall fuel ci t up n, chain root ((ci, t) :: up) -> (height t <= fuel)%nat ->
  (exists ns e l2, first_leaf a fuel (mkns ((ci, t) :: up) n) = Ok ns /\ stands root ns e (bef ((ci, t) :: up)) l2 /\ e :: l2 = elems t ++ aft ((ci, t) :: up)) \/
  (first_leaf a fuel (mkns ((ci, t) :: up) n) = Err KNOT_ENOMEM /\ nomem a).
Proof.
  intros a root W. induction fuel as [|fuel IH]; intros ci t up n C Hf; [destruct t; cbn in Hf; lia|]. cbn [first_leaf].
  destruct (ns_longer_spec a (mkns ((ci, t) :: up) n)) as [[n1 ->]|[-> M]]; cbn [rbind]; [|right; auto]. cbn [ns_top ns_st rbind].
  destruct t as [k v|i b tw]; cbn [isbranch negb].
  - left. exists (mkns ((ci, Leaf k v) :: up) n1), (k, v), (aft ((ci, Leaf k v) :: up)). split; [reflexivity|]. split; [|reflexivity].
    split; [exact C|]. split; [exists ci, up; reflexivity|]. split; reflexivity.
  - pose proof (chain_top_wf _ _ _ _ W C) as Wt. pose proof Wt as (_ & _ & L & _).
    destruct (zget_in_range tw 0 ltac:(lia)) as [c G]. unfold ns_push. rewrite (wf_twig _ _ _ _ _ Wt G). cbn [rbind ns_st ns_alen].
    pose proof (height_child i b tw c (zget_In _ _ _ G)).
    destruct (IH 0 c ((ci, Branch i b tw) :: up) n1) as [(ns & e & l2 & E & S & Q)|[E M]]; [econstructor; eauto|lia| |right; auto].
    assert (X : zfirstn 0 tw = []) by reflexivity.
    left. exists ns, e, l2. split; [exact E|]. rewrite bef_down, X in S. cbn [flat_map] in S. rewrite app_nil_r in S. split; [exact S|].
    rewrite Q, aft_down. cbn [elems]. rewrite (flat_split _ _ _ G), X. cbn [flat_map app]. rewrite <- app_assoc. reflexivity.
Qed.
Lemma ns_first_leaf_spec : forall a root ci t up n, wf root -> chain root ((ci, t) :: up) ->
  (exists ns e l2, ns_first_leaf a (mkns ((ci, t) :: up) n) = Ok ns /\ stands root ns e (bef ((ci, t) :: up)) l2 /\ e :: l2 = elems t ++ aft ((ci, t) :: up)) \/
  (ns_first_leaf a (mkns ((ci, t) :: up) n) = Err KNOT_ENOMEM /\ nomem a).
Proof. intros. unfold ns_first_leaf. cbn [ns_top ns_st rbind]. apply first_leaf_spec; auto. Qed.

(** one twig to the left or to the right *)
Lemma zfirstn_S : forall {A} (l : list A) j c, zget l j = Some c -> zfirstn (j + 1) l = zfirstn j l ++ [c].
Proof.
  intros A l j c G. pose proof (zget_some _ _ _ G). unfold zget in G. destruct (j <? 0) eqn:E; [lia|]. apply nth_error_split in G. destruct G as (l1 & l2 & -> & L).
  assert (J : j = zlen l1) by (unfold zlen; lia). rewrite (zfirstn_app_exact l1 (c :: l2) j J). replace (l1 ++ c :: l2) with ((l1 ++ [c]) ++ l2) by (rewrite <- app_assoc; reflexivity).
  apply zfirstn_app_exact. rewrite zlen_app, zlen_cons. unfold zlen at 2. cbn. lia.
Qed.
Lemma zskipn_S : forall {A} (l : list A) j c, zget l j = Some c -> zskipn j l = c :: zskipn (j + 1) l.
Proof.
  intros A l j c G. pose proof (zget_some _ _ _ G). unfold zget in G. destruct (j <? 0) eqn:E; [lia|]. apply nth_error_split in G. destruct G as (l1 & l2 & -> & L).
  assert (J : j = zlen l1) by (unfold zlen; lia). rewrite (zskipn_app_exact l1 (c :: l2) j J). f_equal. replace (l1 ++ c :: l2) with ((l1 ++ [c]) ++ l2) by (rewrite <- app_assoc; reflexivity).
  symmetry. apply zskipn_app_exact. rewrite zlen_app, zlen_cons. unfold zlen at 2. cbn. lia.
Qed.

Lemma prev_up_spec : forall a root, wf root -> forall st, chain root st -> forall ci t up n, st = (ci, t) :: up ->
  (bef st = [] /\ prev_up a st n = Err KNOT_ENOENT) \/
  (exists ns e l1, prev_up a st n = Ok ns /\ stands root ns e l1 (elems t ++ aft st) /\ l1 ++ [e] = bef st) \/
  (prev_up a st n = Err KNOT_ENOMEM /\ nomem a).
Proof.
  intros a root W st C. induction C as [|j i b tw c ci up C IH G]; intros ci' t' up' n E; inversion E; subst.
  - left. auto.
  - clear E. cbn [prev_up]. pose proof (chain_top_wf _ _ _ _ W C) as Wp. pose proof (zget_some _ _ _ G) as Rg. destruct (ci' =? 0) eqn:E0.
    + assert (ci' = 0) by lia. subst ci'. rewrite bef_down, aft_down. change (zfirstn 0 tw) with (@nil node). cbn [flat_map]. rewrite app_nil_r.
      assert (Q : elems t' ++ flat_map elems (zskipn (0 + 1) tw) ++ aft ((j, Branch i b tw) :: up) = elems (Branch i b tw) ++ aft ((j, Branch i b tw) :: up)).
      { cbn [elems]. rewrite (flat_split _ _ _ G). change (zfirstn 0 tw) with (@nil node). cbn [flat_map app]. rewrite <- app_assoc. reflexivity. }
      rewrite Q. apply (IH _ _ _ _ eq_refl).
    + right. destruct (zget_in_range tw (ci' - 1) ltac:(lia)) as [c G']. unfold ns_push. rewrite (wf_twig _ _ _ _ _ Wp G'). cbn [rbind ns_st ns_alen].
      assert (C' : chain root ((ci' - 1, c) :: (j, Branch i b tw) :: up)) by (econstructor; eauto).
      destruct (ns_last_leaf_spec a root _ _ _ n W C') as [(ns & e & l1 & El & S & Q)|[El M]]; [left|right; auto].
      exists ns, e, l1. split; [exact El|]. rewrite bef_down in *. rewrite aft_down in *. replace (ci' - 1 + 1) with ci' in S by lia. split.
      * rewrite (zskipn_S _ _ _ G) in S. cbn [flat_map] in S. rewrite <- app_assoc in S. exact S.
      * rewrite Q. replace ci' with (ci' - 1 + 1) at 2 by lia. rewrite (zfirstn_S _ _ _ G'). rewrite flat_map_app. cbn [flat_map]. rewrite app_nil_r, app_assoc. reflexivity.
Qed.
Lemma next_up_spec : forall a root, wf root -> forall st, chain root st -> forall ci t up n, st = (ci, t) :: up ->
  (aft st = [] /\ next_up a false st n = Err KNOT_ENOENT) \/
  (exists ns e l2, next_up a false st n = Ok ns /\ stands root ns e (bef st ++ elems t) l2 /\ e :: l2 = aft st) \/
  (next_up a false st n = Err KNOT_ENOMEM /\ nomem a).
Proof.
  intros a root W st C. induction C as [|j i b tw c ci up C IH G]; intros ci' t' up' n E; inversion E; subst.
  - left. auto.
  - clear E. cbn [next_up andb rbind]. pose proof (chain_top_wf _ _ _ _ W C) as Wp. pose proof (zget_some _ _ _ G) as Rg. rewrite wf_weight by auto. cbn [rbind].
    replace (ci' + 1 <=? zlen tw) with true by lia. cbn [negb]. destruct (ci' + 1 =? zlen tw) eqn:E0.
    + rewrite bef_down, aft_down. rewrite (zskipn_all tw (ci' + 1)) by lia. cbn [flat_map app].
      assert (Q : (bef ((j, Branch i b tw) :: up) ++ flat_map elems (zfirstn ci' tw)) ++ elems t' = bef ((j, Branch i b tw) :: up) ++ elems (Branch i b tw)).
      { cbn [elems]. rewrite (flat_split _ _ _ G). rewrite (zskipn_all tw (ci' + 1)) by lia. cbn [flat_map]. rewrite app_nil_r, <- app_assoc. reflexivity. }
      rewrite Q. apply (IH _ _ _ _ eq_refl).
    + right. destruct (zget_in_range tw (ci' + 1) ltac:(lia)) as [c G']. unfold ns_push. rewrite (wf_twig _ _ _ _ _ Wp G'). cbn [rbind ns_st ns_alen].
      assert (C' : chain root ((ci' + 1, c) :: (j, Branch i b tw) :: up)) by (econstructor; eauto).
      destruct (ns_first_leaf_spec a root _ _ _ n W C') as [(ns & e & l2 & El & S & Q)|[El M]]; [left|right; auto].
      exists ns, e, l2. split; [exact El|]. rewrite bef_down in *. rewrite aft_down in *. split.
      * rewrite (zfirstn_S _ _ _ G) in S. rewrite flat_map_app in S. cbn [flat_map] in S. rewrite app_nil_r, app_assoc in S. exact S.
      * rewrite Q. rewrite (zskipn_S _ _ _ G'). cbn [flat_map]. rewrite <- app_assoc. reflexivity.
Qed.

(** *** iteration *)
Lemma it_next_spec : forall a root it e l1 l2, wf root -> stands root it e l1 l2 ->
  match l2 with
  | [] => trie_it_next a it = Ok (it_end it)
  | e' :: l2' => (exists it', trie_it_next a it = Ok it' /\ stands root it' e' (l1 ++ [e]) l2') \/ (trie_it_next a it = Ok (it_end it) /\ nomem a)
  end.
Proof.
  intros a root [st n] [k v] l1 l2 W (C & (ci & up & E) & B & A). cbn [ns_st fst snd] in *. unfold trie_it_next, ns_next_leaf. subst st. cbn [ns_top ns_st rbind isbranch negb andb ns_alen].
  destruct (next_up_spec a root W _ C ci (Leaf k v) up n eq_refl) as [[X ->]|[(ns & e & l' & -> & S & Q)|[-> M]]].
  - rewrite X in A. subst l2. reflexivity.
  - assert (X : l2 = e :: l') by congruence. rewrite B in S. rewrite X. left. exists ns. auto.
  - destruct l2; [reflexivity|]. right. auto.
Qed.
Lemma it_prev_spec : forall a root it e l1 l2, wf root -> stands root it e l1 l2 ->
  (l1 = [] /\ trie_it_prev a it = Ok (it_end it)) \/
  (exists e' l1' it', l1 = l1' ++ [e'] /\ trie_it_prev a it = Ok it' /\ stands root it' e' l1' (e :: l2)) \/ (trie_it_prev a it = Ok (it_end it) /\ nomem a).
Proof.
  intros a root [st n] [k v] l1 l2 W (C & (ci & up & E) & B & A). cbn [ns_st fst snd] in *. unfold trie_it_prev, ns_prev_leaf. subst st. cbn [ns_top ns_st rbind isbranch negb andb ns_alen].
  destruct (prev_up_spec a root W _ C ci (Leaf k v) up n eq_refl) as [[X ->]|[(ns & e & l' & -> & S & Q)|[-> M]]].
  - left. split; [congruence|reflexivity].
  - right. left. rewrite A in S. cbn [elems app] in S. exists e, l', ns. split; [congruence|]. auto.
  - right. right. auto.
Qed.
Lemma it_begin_spec : forall a t, twf t ->
  (content t = [] /\ trie_it_begin a t = if a_it a then Ok (Some (ns_init t)) else Ok None) \/
  (exists it e l2, trie_it_begin a t = Ok (Some it) /\ stands (t_root t) it e [] l2 /\ content t = e :: l2) \/
  (trie_it_begin a t = Ok None /\ (nomem a \/ a_it a = false)).
Proof.
  intros a t [[H Hr]|[W H]].
  - left. unfold content, trie_it_begin, ns_init. rewrite H. cbn. split; [auto|]. destruct (a_it a); reflexivity.
  - right. unfold trie_it_begin. destruct (a_it a) eqn:E; cbn [negb]; [|right; auto]. pose proof (wf_weight_pos _ W). unfold ns_init. replace (t_weight t >? 0) with true by lia.
    cbn [ns_st]. destruct (ns_first_leaf_spec a (t_root t) 0 (t_root t) [] 250 W (chain_root _)) as [(ns & e & l2 & -> & S & Q)|[-> M]]; [left|right; auto].
    exists ns, e, l2. split; [auto|]. cbn [bef aft app] in *. split; [exact S|]. rewrite content_wf by auto. rewrite Q, app_nil_r. reflexivity.
Qed.

(** *** less or equal *)
Lemma leq_spec : forall a t key, wf (t_root t) -> t_weight t = zlen (elems (t_root t)) -> key_ok key ->
  (exists ns v l1 l2, ns_get_leq a (ns_init t) key = Ok (true, ns) /\ stands (t_root t) ns (key, v) l1 l2) \/
  (exists ns e l1 l2, ns_get_leq a (ns_init t) key = Ok (false, ns) /\ stands (t_root t) ns e l1 l2 /\ klt (fst e) key /\ (forall k, In k (map fst l2) -> klt key k)) \/
  (ns_get_leq a (ns_init t) key = Err KNOT_ENOENT /\ forall k, In k (keys (t_root t)) -> klt key k) \/
  (ns_get_leq a (ns_init t) key = Err KNOT_ENOMEM /\ nomem a).
Proof.
  intros a t key W H K. pose proof (wf_weight_pos _ W) as P. unfold ns_get_leq.
  destruct (find_branch_spec a t key W ltac:(lia) K) as [(n & st & ci & v & -> & C & up & ->)|[(n & st & idiff & L & -> & F)|[-> M]]]; cbn [rbind]; [| |right; right; right; auto].
  { left. cbn [ns_top ns_st rbind]. rewrite Z.eqb_refl. exists (mkns ((ci, Leaf key v) :: up) n), v, (bef ((ci, Leaf key v) :: up)), (aft ((ci, Leaf key v) :: up)).
    split; [reflexivity|]. split; [exact C|]. split; [exists ci, up; reflexivity|]. split; reflexivity. }
  right. pose proof F as [C R A D I T U]. destruct (found_sides _ _ _ _ _ W K F) as [SB SA]. pose proof (found_agree _ _ _ _ _ W F) as FA. pose proof (found_nib _ _ _ _ _ W F) as FN.
  destruct (chain_cons _ _ C) as (ci & nd & up & ->). cbn [ns_top ns_st rbind]. replace (idiff =? TMAX_INDEX) with false by lia.
  pose proof (chain_top_wf _ _ _ _ W C) as Wn. pose proof (nib_range key idiff (proj1 K)) as Rk. assert (KL : key_ok L) by (eapply wf_keys_ok; [exact Wn|exact I]). pose proof (nib_range L idiff (proj1 KL)) as RL.
  assert (BK : forall k, In k (keys nd) -> bytes k) by (intros; eapply wf_bytes; eauto).
  (* what it means to have found the predecessor *)
  assert (FIN : forall ns e l1 lft rgt, stands (t_root t) ns e l1 rgt -> l1 ++ [e] = lft -> (forall k, In k (map fst lft) -> klt k key) -> (forall k, In k (map fst rgt) -> klt key k) ->
     exists ns' e l1 l2, Ok (false, ns) = Ok (false, ns') /\ stands (t_root t) ns' e l1 l2 /\ klt (fst e) key /\ (forall k, In k (map fst l2) -> klt key k)).
  { intros ns e l1 lft rgt S Q H1 H2. exists ns, e, l1, rgt. split; [reflexivity|]. split; [exact S|]. split; [|auto]. apply H1. rewrite <- Q, map_app. apply in_app_iff. right. cbn. auto. }
  assert (LTB : (bitof (nib key idiff) <? bitof (nib L idiff)) = (nib key idiff <? nib L idiff)).
  { unfold bitof. destruct (nib key idiff <? nib L idiff) eqn:E.
    - apply Z.ltb_lt. apply Z.pow_lt_mono_r; lia.
    - apply Z.ltb_ge. apply Z.pow_le_mono_r; lia. }
  assert (INM : forall (k : list Z) (l : list (list Z * Z)), In k (map fst l) -> exists v, In (k, v) l). { intros k l Hk. apply in_map_iff in Hk. destruct Hk as ([k' v] & <- & Hk). eauto. }
  destruct (match nd with Branch i _ _ => i =? idiff | Leaf _ _ => false end) eqn:EB.
  - (* the key leaves the tree in this branch *)
    destruct nd as [|i b tw]; [discriminate|]. assert (i = idiff) by lia. subst i. destruct T as [_ T]. specialize (T eq_refl). cbn [rbind].
    rewrite wf_hastwig by auto. cbn [rbind]. rewrite T. pose proof Wn as (_ & Kb & _). rewrite wf_twigoff by auto. cbn [rbind]. cbv beta iota in FA.
    destruct (wf_add idiff b tw key 0 Wn K T FA) as (l1 & l2 & Etw & Ll & _ & S1 & S2). rewrite <- Ll.
    assert (M1 : forall k, In k (map fst (flat_map elems l1)) -> klt k key). { intros k Hk. destruct (INM _ _ Hk) as [v Hv]. apply in_flat_map in Hv. destruct Hv as (c & Hc & Hv). apply in_keys in Hv. eapply S1; eauto. }
    assert (M2 : forall k, In k (map fst (flat_map elems l2)) -> klt key k). { intros k Hk. destruct (INM _ _ Hk) as [v Hv]. apply in_flat_map in Hv. destruct Hv as (c & Hc & Hv). apply in_keys in Hv. eapply S2; eauto. }
    pose proof (zlen_nonneg l1). destruct (0 <=? zlen l1 - 1) eqn:E0.
    + destruct (ns_longer_spec a (mkns ((ci, Branch idiff b tw) :: up) n)) as [[n1 ->]|[-> M]]; cbn [rbind]; [|right; right; auto]. cbn [ns_st ns_alen].
      destruct (zget_in_range tw (zlen l1 - 1)) as [c G]; [rewrite Etw, zlen_app; pose proof (zlen_nonneg l2); lia|]. unfold ns_push. rewrite (wf_twig _ _ _ _ _ Wn G). cbn [rbind ns_st ns_alen].
      assert (C' : chain (t_root t) ((zlen l1 - 1, c) :: (ci, Branch idiff b tw) :: up)) by (econstructor; eauto).
      destruct (ns_last_leaf_spec a (t_root t) _ _ _ n1 W C') as [(ns & e & l' & -> & S & Q)|[-> M]]; cbn [rbind]; [left|right; right; auto].
      eapply FIN; [exact S|exact Q| |].
      * intros k Hk. rewrite bef_down, <- app_assoc, map_app in Hk. apply in_app_iff in Hk. destruct Hk as [Hk|Hk]; [auto|]. apply M1.
        replace l1 with (zfirstn (zlen l1 - 1 + 1) tw) by (rewrite Etw; apply zfirstn_app_exact; lia). rewrite (zfirstn_S _ _ _ G), flat_map_app. cbn [flat_map]. rewrite app_nil_r. exact Hk.
      * intros k Hk. rewrite aft_down in Hk. replace (zskipn (zlen l1 - 1 + 1) tw) with l2 in Hk by (rewrite Etw; symmetry; apply zskipn_app_exact; lia).
        rewrite map_app in Hk. apply in_app_iff in Hk. destruct Hk; auto.
    + assert (l1 = []) by (destruct l1; [auto|rewrite zlen_cons in *; pose proof (zlen_nonneg l1); lia]). subst l1. cbn [app] in Etw. subst l2. cbn [flat_map] in *.
      unfold ns_prev_leaf. cbn [ns_top ns_st rbind isbranch ns_alen]. change BMP_NOBYTE with (bitof 0). rewrite wf_hastwig by lia. cbn [rbind].
      assert (NB : Z.testbit b (0 + 2) = false).
      { apply Bool.not_true_iff_false. intros X. destruct (Z.eq_dec (nib key idiff) 0) as [E|N]; [congruence|]. 
        assert (In 0 (low b (nib key idiff))). { unfold low. apply filter_In. split; [apply digits_In; split; [lia|auto]|lia]. }
        unfold zlen in Ll. destruct (low b (nib key idiff)); [auto|discriminate]. }
      rewrite NB. destruct (prev_up_spec a (t_root t) W _ C ci (Branch idiff b tw) up n eq_refl) as [[X ->]|[(ns & e & l' & -> & S & Q)|[-> M]]]; cbn [rbind].
      * right. left. split; [auto|]. intros k Hk. unfold keys in Hk. rewrite (chain_elems _ _ _ _ C), X in Hk. cbn [app elems] in Hk. rewrite map_app in Hk. apply in_app_iff in Hk. destruct Hk; auto.
      * left. eapply FIN; [exact S|exact Q|exact SB|]. intros k Hk. rewrite map_app in Hk. apply in_app_iff in Hk. destruct Hk; auto.
      * right. right. auto.
  - (* the key leaves the tree above this node *)
    assert (FN' : forall k, In k (keys nd) -> nib k idiff = nib L idiff). { apply FN. destruct nd; [auto|lia]. }
    assert (CMP : forall k, In k (map fst (elems nd)) -> if nib key idiff <? nib L idiff then klt key k else klt k key).
    { intros k Hk. change (In k (keys nd)) in Hk. specialize (FN' _ Hk). specialize (FA _ Hk). pose proof (BK _ Hk). destruct (nib key idiff <? nib L idiff) eqn:E; apply nlt_klt; auto; try apply K.
      - exists idiff. split; [lia|]. split; [auto|lia].
      - exists idiff. split; [lia|]. split; [apply agree_sym; auto|lia]. }
    destruct up as [|[j p] up].
    + (* at the root *)
      rewrite LTB. cbn [rbind]. cbn [bef aft app] in *. assert (nd = t_root t) by (inversion C; auto). subst nd. destruct (nib key idiff <? nib L idiff) eqn:E.
      * right. left. split; [auto|]. intros k Hk. apply CMP. exact Hk.
      * destruct (ns_last_leaf_spec a (t_root t) _ _ _ n W C) as [(ns & e & l' & -> & S & Q)|[-> M]]; cbn [rbind]; [left|right; right; auto].
        cbn [bef aft app] in *. eapply FIN; [exact S|exact Q|exact CMP|]. intros k [].
    + destruct (chain_parent _ _ _ _ _ _ C) as (i & b & tw & -> & G). unfold twigbit. cbn [branch_index rbind].
      pose proof (chain_pop _ _ _ _ C) as Cp. pose proof (chain_top_wf _ _ _ _ W Cp) as Wp. destruct (wf_digit _ _ _ _ _ Wp G) as (d & Gd & Rd & Ed & Dd). pose proof Wp as (Hi & Kb & _).
      rewrite keybit_nib by apply K. assert (NK : nib key i = d) by (rewrite (A i) by lia; apply Dd; exact I). rewrite NK. rewrite wf_hastwig by auto. cbn [rbind]. rewrite Ed. rewrite wf_twigoff by auto. cbn [rbind].
      apply digits_pos in Gd as Gp. rewrite <- Gp. rewrite LTB. cbn [ns_alen]. pose proof (zget_some _ _ _ G) as Rg. destruct (nib key idiff <? nib L idiff) eqn:E.
      * destruct (0 <=? ci - 1) eqn:E0.
        -- destruct (ns_longer_spec a (mkns ((j, Branch i b tw) :: up) n)) as [[n1 ->]|[-> M]]; cbn [rbind]; [|right; right; auto]. cbn [ns_st ns_alen].
           destruct (zget_in_range tw (ci - 1) ltac:(lia)) as [c G']. unfold ns_push. rewrite (wf_twig _ _ _ _ _ Wp G'). cbn [rbind ns_st ns_alen].
           assert (C' : chain (t_root t) ((ci - 1, c) :: (j, Branch i b tw) :: up)) by (econstructor; eauto).
           destruct (ns_last_leaf_spec a (t_root t) _ _ _ n1 W C') as [(ns & e & l' & -> & S & Q)|[-> M]]; cbn [rbind]; [left|right; right; auto].
           rewrite bef_down in *. rewrite aft_down in *.
           eapply FIN; [exact S|exact Q| |].
           ++ intros k Hk. apply SB. replace ci with (ci - 1 + 1) by lia. rewrite (zfirstn_S _ _ _ G'), flat_map_app. cbn [flat_map]. rewrite app_nil_r. rewrite <- app_assoc in Hk. exact Hk.
           ++ intros k Hk. replace (ci - 1 + 1) with ci in Hk by lia. rewrite (zskipn_S _ _ _ G) in Hk. cbn [flat_map] in Hk. rewrite <- app_assoc, map_app in Hk. apply in_app_iff in Hk. destruct Hk; auto.
        -- assert (ci = 0) by lia. assert (Gz : zlen (low b d) = 0) by lia. clear Gp. subst ci. unfold ns_prev_leaf. cbn [ns_top ns_st rbind isbranch ns_alen]. change BMP_NOBYTE with (bitof 0). rewrite wf_hastwig by lia. cbn [rbind].
           assert (NB : Z.testbit b (0 + 2) = false).
           { apply Bool.not_true_iff_false. intros X. destruct (Z.eq_dec d 0) as [->|N].
             - assert (key = L).
               { apply nib0_eq with i; [apply K|apply KL|auto|auto|apply Dd; auto|eapply agree_le; [|exact A]; lia]. }
               congruence.
             - assert (In 0 (low b d)). { unfold low. apply filter_In. split; [apply digits_In; split; [lia|auto]|lia]. }
               unfold zlen in Gz. destruct (low b d); [auto|discriminate]. }
           rewrite NB. rewrite bef_down in SB. rewrite aft_down in SA. change (zfirstn 0 tw) with (@nil node) in SB. cbn [flat_map] in SB. rewrite app_nil_r in SB.
           assert (Q0 : forall k, In k (map fst (elems (Branch i b tw) ++ aft ((j, Branch i b tw) :: up))) -> klt key k).
           { intros k Hk. cbn [elems] in Hk. rewrite (flat_split _ _ _ G) in Hk. change (zfirstn 0 tw) with (@nil node) in Hk. cbn [flat_map app] in Hk. rewrite <- app_assoc, map_app in Hk. apply in_app_iff in Hk. destruct Hk; auto. }
           destruct (prev_up_spec a (t_root t) W _ Cp j (Branch i b tw) up n eq_refl) as [[X ->]|[(ns & e & l' & -> & S & Q)|[-> M]]]; cbn [rbind].
           ++ right. left. split; [auto|]. intros k Hk. unfold keys in Hk. rewrite (chain_elems _ _ _ _ Cp), X in Hk. cbn [app] in Hk. auto.
           ++ left. eapply FIN; [exact S|exact Q|exact SB|exact Q0].
           ++ right. right. auto.
      * replace (0 <=? ci - 0) with true by lia. replace (ci - 0) with ci by lia.
        destruct (ns_longer_spec a (mkns ((j, Branch i b tw) :: up) n)) as [[n1 ->]|[-> M]]; cbn [rbind]; [|right; right; auto]. cbn [ns_st ns_alen].
        unfold ns_push. rewrite (wf_twig _ _ _ _ _ Wp G). cbn [rbind ns_st ns_alen].
        destruct (ns_last_leaf_spec a (t_root t) _ _ _ n1 W C) as [(ns & e & l' & -> & S & Q)|[-> M]]; cbn [rbind]; [left|right; right; auto].
        eapply FIN; [exact S|exact Q| |exact SA]. intros k Hk. rewrite map_app in Hk. apply in_app_iff in Hk. destruct Hk; auto.
Qed.
