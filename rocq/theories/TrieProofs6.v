(** Proofs about the trie: circular iteration, prefixes, deletion at an iterator, apply. *)
From Verif Require Import Base TrieModel TrieSpec TrieProofs TrieProofs2 TrieProofs3 TrieProofs4 TrieProofs5.
From Coq Require Import Sorted.

Lemma In_zget : forall {A} (l : list A) x, In x l -> exists j, zget l j = Some x.
Proof.
  intros A l x H. apply In_nth_error in H. destruct H as [n H]. exists (Z.of_nat n). unfold zget. destruct (Z.of_nat n <? 0) eqn:E; [lia|]. rewrite Nat2Z.id. exact H.
Qed.

(** *** the loops around the ends *)
Lemma chain_rev : forall root st, chain root st -> exists l, rev st = (0, root) :: l.
Proof.
  intros root st C. induction C as [|j i b tw c ci up C [l E] G]; [exists []; reflexivity|]. change (rev ((ci, c) :: (j, Branch i b tw) :: up)) with (rev ((j, Branch i b tw) :: up) ++ [(ci, c)]).
  rewrite E. eexists. reflexivity.
Qed.
Lemma it_next_loop_spec : forall a root it e l1 l2, wf root -> stands root it e l1 l2 ->
  (exists it' e' l1' l2', trie_it_next_loop a it = Ok it' /\ stands root it' e' l1' l2' /\
     match l2 with [] => l1' = [] | x :: _ => e' = x end) \/ (trie_it_next_loop a it = Ok (it_end it) /\ nomem a).
Proof.
  intros a root [st n] [k v] l1 l2 W (C & (ci & up & E) & B & A). cbn [ns_st fst snd] in *. unfold trie_it_next_loop, ns_next_leaf. subst st. cbn [ns_top ns_st rbind isbranch negb andb ns_alen].
  destruct (next_up_spec a root W _ C ci (Leaf k v) up n eq_refl) as [[X ->]|[(ns & e & l' & -> & S & Q)|[-> M]]].
  - assert (El : l2 = []) by congruence. rewrite El. rewrite Z.eqb_refl. unfold it_root. cbn [ns_st ns_alen]. destruct (chain_rev _ _ C) as [l ->].
    destruct (ns_first_leaf_spec a root 0 root [] n W (chain_root _)) as [(ns & e & l3 & -> & S & Q)|[-> M]]; [left|right; auto].
    exists ns, e, [], l3. split; [reflexivity|]. split; [exact S|reflexivity].
  - left. exists ns, e, (l1 ++ [(k, v)]), l'. split; [auto|]. rewrite B in S. split; [exact S|]. assert (X : l2 = e :: l') by congruence. rewrite X. auto.
  - right. split; auto.
Qed.
Lemma it_prev_loop_spec : forall a root it e l1 l2, wf root -> stands root it e l1 l2 ->
  (exists it' e' l1' l2', trie_it_prev_loop a it = Ok it' /\ stands root it' e' l1' l2' /\
     match l1 with [] => l2' = [] | _ => l1 = l1' ++ [e'] end) \/ (trie_it_prev_loop a it = Ok (it_end it) /\ nomem a).
Proof.
  intros a root [st n] [k v] l1 l2 W (C & (ci & up & E) & B & A). cbn [ns_st fst snd] in *. unfold trie_it_prev_loop, ns_prev_leaf. subst st. cbn [ns_top ns_st rbind isbranch negb andb ns_alen].
  destruct (prev_up_spec a root W _ C ci (Leaf k v) up n eq_refl) as [[X ->]|[(ns & e & l' & -> & S & Q)|[-> M]]].
  - assert (El : l1 = []) by congruence. rewrite El. rewrite Z.eqb_refl. unfold it_root. cbn [ns_st ns_alen]. destruct (chain_rev _ _ C) as [l ->].
    destruct (ns_last_leaf_spec a root 0 root [] n W (chain_root _)) as [(ns & e & l3 & -> & S & Q)|[-> M]]; [left|right; auto].
    exists ns, e, l3, []. split; [reflexivity|]. split; [exact S|reflexivity].
  - left. exists ns, e, l', ((k, v) :: l2). split; [auto|]. rewrite A in S. split; [exact S|]. assert (X : l1 = l' ++ [e]) by congruence. rewrite X. destruct l'; reflexivity.
  - right. split; auto.
Qed.

(** *** deletion at an iterator *)
Lemma it_del_spec : forall t it e l1 l2, wf (t_root t) -> t_weight t = zlen (elems (t_root t)) -> stands (t_root t) it e l1 l2 ->
  exists t', trie_it_del t it = Ok (t', it_end it) /\ twf t' /\ content t' = l1 ++ l2.
Proof.
  intros t [st n] [k v] l1 l2 W H S. pose proof (stands_elems _ _ _ _ _ S) as EL. destruct S as (C & (ci & up & E) & B & A). cbn [ns_st fst snd] in *. unfold trie_it_del. cbn [ns_st]. subst st.
  assert (KO : bytes k). { eapply wf_bytes; [exact W|]. unfold keys. rewrite EL, map_app. apply in_app_iff. right. cbn. auto. }
  assert (X : exists b, match (ci, Leaf k v) :: up with [] => UB | [_] => Ok 0 | _ :: (_, p) :: _ => let* key := trie_it_key (mkns ((ci, Leaf k v) :: up) n) in twigbit p key end = Ok b /\ match up with (_, Branch i _ _) :: _ => b = bitof (nib k i) | _ => True end).
  { destruct up as [|[j p] up]; [exists 0; split; [reflexivity|exact I]|]. destruct (chain_parent _ _ _ _ _ _ C) as (i & bm & tw & -> & G). unfold trie_it_key. cbn [ns_top ns_st rbind tkey]. unfold twigbit. cbn [branch_index rbind].
    pose proof (chain_pop _ _ _ _ C) as Cp. pose proof (chain_top_wf _ _ _ _ W Cp) as (Hi & _). rewrite keybit_nib by auto. eexists. split; [reflexivity|reflexivity]. }
  destruct X as (b & -> & Hb). cbn [rbind].
  destruct (del_found_spec t ci k v up b W H C Hb) as (t' & m1 & m2 & -> & T & E1 & E2). cbn [rbind]. exists t'. split; [reflexivity|]. split; [exact T|]. rewrite E2.
  rewrite content_wf in E1 by auto. rewrite EL in E1.
  assert (SS : StronglySorted kvlt (l1 ++ (k, v) :: l2)) by (rewrite <- EL; apply elems_sorted; auto).
  clear - E1 SS. revert m1 E1 SS. induction l1 as [|x l1 IH]; intros [|y m1] E1 SS; cbn in *.
  - congruence.
  - inversion E1; subst. inversion SS; subst. rewrite Forall_forall in H2. specialize (H2 (k, v)). exfalso. apply (klt_irrefl k). apply H2. apply in_app_iff. right. cbn. auto.
  - inversion E1; subst. inversion SS; subst. rewrite Forall_forall in H2. specialize (H2 (k, v)). exfalso. apply (klt_irrefl k). apply H2. apply in_app_iff. right. cbn. auto.
  - inversion E1; subst. f_equal. inversion SS; subst. apply IH; auto.
Qed.

(** *** apply *)
Fixpoint apply_list {S} (f : Z -> S -> Z * S * Z) (l : list (list Z * Z)) (s : S) : list (list Z * Z) * S * Z :=
  match l with
  | [] => ([], s, 0)
  | (k, v) :: l => let '(v, s, r) := f v s in if r =? 0 then let '(l, s, r) := apply_list f l s in ((k, v) :: l, s, r) else ((k, v) :: l, s, r)
  end.
Lemma apply_list_app : forall {S} (f : Z -> S -> Z * S * Z) l1 l2 s, apply_list f (l1 ++ l2) s =
  let '(m1, s1, r1) := apply_list f l1 s in if r1 =? 0 then let '(m2, s2, r2) := apply_list f l2 s1 in (m1 ++ m2, s2, r2) else (m1 ++ l2, s1, r1).
Proof.
  intros S f. induction l1 as [|[k v] l1 IH]; intros l2 s; cbn.
  - destruct (apply_list f l2 s) as [[? ?] ?]. reflexivity.
  - destruct (f v s) as [[v' s'] r]. destruct (r =? 0) eqn:E; [|rewrite E; reflexivity]. rewrite IH. destruct (apply_list f l1 s') as [[m1 s1] r1]. destruct (r1 =? 0) eqn:E1; [|reflexivity].
    destruct (apply_list f l2 s1) as [[m2 s2] r2]. reflexivity.
Qed.
Lemma apply_nodes_spec : forall {S} (f : Z -> S -> Z * S * Z) t s, wf t -> forall t' s' r, apply_nodes f t s = (t', s', r) ->
  wf t' /\ keys t' = keys t /\ apply_list f (elems t) s = (elems t', s', r).
Proof.
  intros S f. induction t as [k v|i b tw IH] using node_ind2; intros s W t' s' r E.
  - cbn in E. cbn [elems apply_list]. destruct (f v s) as [[v' s1] r1]. inversion E; subst. split; [exact W|]. split; [reflexivity|]. cbn. destruct (r =? 0) eqn:E0; [|reflexivity]. replace r with 0 by lia. reflexivity.
  - rewrite Forall_forall in IH. cbn [apply_nodes] in E.
    set (go := fix go (l : list node) (s : S) : list node * S * Z := match l with [] => ([], s, KNOT_EOK) | c :: l => let '(c, s, r) := apply_nodes f c s in if negb (r =? KNOT_EOK) then (c :: l, s, r) else let '(l, s, r) := go l s in (c :: l, s, r) end) in *.
    assert (G : forall l s, (forall c, In c l -> In c tw) -> forall l' s' r, go l s = (l', s', r) -> Forall2 (fun c c' => keys c' = keys c /\ wf c') l l' /\ apply_list f (flat_map elems l) s = (flat_map elems l', s', r)).
    { induction l as [|c l IHl]; intros s0 Hl l' s1 r1 E1; cbn in E1.
      - inversion E1; subst. cbn. auto.
      - destruct (apply_nodes f c s0) as [[c' s2] r2] eqn:E2. pose proof (Hl c (or_introl eq_refl)) as Hc. destruct (IH c Hc s0 (wf_child _ _ _ _ W Hc) _ _ _ E2) as (W' & K' & A').
        cbn [flat_map]. rewrite apply_list_app, A'. change KNOT_EOK with 0 in E1. destruct (r2 =? 0) eqn:E0; cbn [negb] in E1.
        + destruct (go l s2) as [[l2 s3] r3] eqn:E3. inversion E1; subst. destruct (IHl s2 (fun x h => Hl x (or_intror h)) _ _ _ E3) as [F2 A2]. rewrite A2. split; [constructor; auto|reflexivity].
        + inversion E1; subst. split; [|reflexivity]. constructor; [auto|]. assert (Q : forall x, In x l -> wf x) by (intros x Hx; eapply wf_child; [exact W|apply Hl; right; auto]). clear - Q. induction l; constructor; auto; [split; [reflexivity|apply Q; left; auto]|apply IHl; intros; apply Q; right; auto]. }
    destruct (go tw s) as [[tw' s1] r1] eqn:E1. inversion E; subst. destruct (G tw s (fun c h => h) _ _ _ E1) as [F A]. clear G E E1.
    assert (KK : forall k, In k (keys (Branch i b tw')) <-> In k (keys (Branch i b tw))).
    { intros k. rewrite !keys_branch. clear - F. induction F as [|c c' l l' [K _] F IH]; [tauto|]. split; intros (x & [<-|Hx] & Hk).
      - exists c. split; [left; auto|congruence].
      - destruct (proj1 IH) as (y & ? & ?); [eauto|]. exists y. split; [right; auto|auto].
      - exists c'. split; [left; auto|congruence].
      - destruct (proj2 IH) as (y & ? & ?); [eauto|]. exists y. split; [right; auto|auto]. }
    split; [|split; [|exact A]].
    + destruct W as (H1 & H2 & H3 & H4 & H5 & H6). cbn [wf]. split; [auto|]. split; [auto|]. split; [|split; [|split]].
      * replace (zlen tw') with (zlen tw); [auto|]. unfold zlen. f_equal. eapply Forall2_length; eauto.
      * clear - H4 F. revert F. generalize tw'. revert H4. generalize (digits b). intros ds H4. induction H4 as [|c d l ds Hd H4 IH]; intros l' F; inversion F; subst; constructor; auto. intros k Hk. apply Hd. destruct H1 as [<- _]. exact Hk.
      * intros k1 k2 K1 K2. apply H5; apply KK; auto.
      * apply wf_children. apply Forall_forall. intros c Hc. clear - F Hc. induction F as [|? ? ? ? [_ ?] F IH]; [destruct Hc|]. destruct Hc as [<-|Hc]; auto.
    + clear - F. unfold keys. cbn [elems]. rewrite !flat_map_concat_map, !concat_map, !map_map. f_equal. induction F as [|c c' l l' [K _] F IH]; [reflexivity|]. cbn. f_equal; auto.
Qed.

(** *** prefixes *)
Lemma nib_none : forall k i, bytes k -> 0 <= i -> (nib k i = 0 <-> 2 * zlen k <= i).
Proof.
  intros k i B Hi. unfold nib. destruct (zget k (i / 2)) as [b|] eqn:E.
  - pose proof (zget_some _ _ _ E). pose proof (zget_byte _ _ _ B E) as Bb. unfold byte in Bb. destruct (Z.odd i); lia.
  - assert (zlen k <= i / 2). { destruct (Z_lt_le_dec (i / 2) (zlen k)) as [L|L]; [|auto]. destruct (zget_in_range k (i / 2) ltac:(lia)) as [c G]. congruence. } lia.
Qed.
Lemma nib_app : forall q r i, 0 <= i < 2 * zlen q -> nib (q ++ r) i = nib q i.
Proof. intros q r i H. unfold nib. rewrite zget_app_l by lia. reflexivity. Qed.
Lemma pprefix_nib : forall q k i, bytes q -> bytes k -> 0 <= i -> agree i q k -> nib q i = 0 -> nib k i <> 0 -> pprefix q k /\ i = 2 * zlen q.
Proof.
  intros q k i Bq Bk Hi A N0 N1. rewrite nib_none in N0 by auto. assert (N2 : ~ 2 * zlen k <= i) by (rewrite <- (nib_none k i); auto).
  assert (i = 2 * zlen q).
  { destruct (Z.eq_dec i (2 * zlen q)) as [|N]; [auto|]. exfalso. pose proof (zlen_nonneg q). assert (Z0 : nib q (2 * zlen q) = 0) by (apply nib_none; auto; lia).
    rewrite (A (2 * zlen q)) in Z0 by lia. apply nib_none in Z0; auto; lia. }
  split; [|auto]. subst i. clear N0 N1 Hi. revert k Bk A N2. induction q as [|x q IH]; intros k Bk A N2.
  - destruct k as [|y k]; [cbn in N2; lia|]. exists y, k. reflexivity.
  - destruct k as [|y k]; [pose proof (zlen_nonneg (x :: q)); change (zlen (@nil Z)) with 0 in N2; lia|]. rewrite !zlen_cons in *. apply bytes_cons in Bq. apply bytes_cons in Bk. destruct Bq as [Bx Bq]. destruct Bk as [By Bk]. pose proof (zlen_nonneg q).
    assert (x = y) by (eapply agree_head; [auto|auto| |exact A]; lia). subst y. destruct (IH Bq k Bk) as (y & t & ->); [|lia|exists y, t; reflexivity].
    apply agree_tail in A. eapply agree_le; [|exact A]. lia.
Qed.
Lemma pprefix_agree : forall q k, bytes q -> bytes k -> pprefix q k -> agree (2 * zlen q) q k /\ nib q (2 * zlen q) = 0 /\ nib k (2 * zlen q) <> 0.
Proof.
  intros q k Bq Bk (y & t & ->). pose proof (zlen_nonneg q). pose proof (zlen_nonneg t). split; [|split].
  - intros j J. symmetry. apply nib_app. lia.
  - apply nib_none; auto; lia.
  - rewrite nib_none by (auto; lia). rewrite zlen_app, zlen_cons. lia.
Qed.

Lemma same_child : forall i b tw j1 j2 c1 c2 k1 k2, wf (Branch i b tw) -> zget tw j1 = Some c1 -> zget tw j2 = Some c2 -> In k1 (keys c1) -> In k2 (keys c2) ->
  nib k1 i = nib k2 i -> j1 = j2 /\ c1 = c2.
Proof.
  intros i b tw j1 j2 c1 c2 k1 k2 W G1 G2 K1 K2 E. destruct (wf_digit _ _ _ _ _ W G1) as (d1 & D1 & _ & _ & N1). destruct (wf_digit _ _ _ _ _ W G2) as (d2 & D2 & _ & _ & N2).
  rewrite (N1 _ K1), (N2 _ K2) in E. subst d2. assert (j1 = j2) by (rewrite (digits_pos _ _ _ D1), (digits_pos _ _ _ D2); reflexivity). subst j2. split; [auto|congruence].
Qed.

(** A key that agrees with a key below a node up to the index of the parent is below the same node. *)
Lemma chain_in : forall root st, chain root st -> wf root -> forall ci t up k q, st = (ci, t) :: up -> In k (keys t) -> In q (keys root) ->
  match up with (_, Branch i _ _) :: _ => agree (i + 1) q k | _ => True end -> In q (keys t).
Proof.
  intros root st C W. induction C as [|j i b tw c cx up' C IH G]; intros ci t up k q E K Q A; inversion E; subst; [auto|].
  pose proof (chain_top_wf _ _ _ _ W C) as Wp. pose proof (zget_In _ _ _ G) as Ic.
  assert (Kp : In k (keys (Branch i b tw))) by (apply keys_branch; eauto).
  assert (Qp : In q (keys (Branch i b tw))).
  { eapply IH; [reflexivity|exact Kp|exact Q|]. destruct up' as [|[j2 p2] up2]; [exact I|]. destruct p2 as [|i2 b2 tw2]; [exact I|]. pose proof (chain_index _ _ _ _ _ _ _ _ _ _ W C). eapply agree_le; [|exact A]. lia. }
  apply keys_branch in Qp. destruct Qp as (c0 & I0 & Q0). destruct (In_zget _ _ I0) as [j0 G0]. destruct Wp as (Hi & Wp').
  destruct (same_child i b tw j0 ci c0 t q k (conj Hi Wp') G0 G Q0 K) as [_ ->]; [apply A; lia|auto].
Qed.

Lemma prefix_up_spec : forall root, wf root -> forall st, chain root st -> forall ci c up k n first, st = (ci, c) :: up -> In k (keys c) ->
  (* below this node nothing but k itself can be a prefix *)
  match c with Leaf k' _ => first = true /\ k' = k | Branch _ _ _ => first = false end ->
  (forall q, In q (keys c) -> ~ pprefix q k) ->
  (exists ns q v l1 l2, prefix_up first ci up n = Ok ns /\ stands root ns (q, v) l1 l2 /\ pprefix q k /\ forall q', In q' (keys root) -> pprefix q' k -> zlen q' <= zlen q) \/
  (prefix_up first ci up n = Err KNOT_ENOENT /\ forall q, In q (keys root) -> ~ pprefix q k).
Proof.
  intros root W st C. induction C as [|j i b tw c cx up' C IH G]; intros ci t up k n first E K F N; inversion E; subst.
  - right. split; [reflexivity|auto].
  - clear E. pose proof (chain_top_wf _ _ _ _ W C) as Wp. pose proof (zget_In _ _ _ G) as Ic. assert (Kp : In k (keys (Branch i b tw))) by (apply keys_branch; eauto).
    cbn [prefix_up]. change BMP_NOBYTE with (bitof 0). rewrite wf_hastwig by lia. cbn [rbind]. pose proof Wp as (Hi & _).
    assert (Bk : bytes k) by (eapply wf_bytes; [exact Wp|exact Kp]).
    destruct (wf_digit _ _ _ _ _ Wp G) as (d & Gd & Rd & Ed & Dd).
    assert (DIV : forall q, In q (keys (Branch i b tw)) -> pprefix q k -> nib q i = 0 /\ nib k i <> 0 /\ i = 2 * zlen q /\ Z.testbit b (0 + 2) = true).
    { intros q Hq P. assert (Bq : bytes q) by (eapply wf_bytes; [exact Wp|exact Hq]). destruct (pprefix_agree q k Bq Bk P) as (A & N0 & N1).
      pose proof Hq as Hq'. apply keys_branch in Hq'. destruct Hq' as (c0 & I0 & Q0). destruct (In_zget _ _ I0) as [j0 G0]. destruct (wf_digit _ _ _ _ _ Wp G0) as (d0 & Gd0 & Rd0 & Ed0 & Dd0).
      assert (ND : nib q i <> nib k i).
      { intros X. rewrite (Dd _ K), (Dd0 _ Q0) in X. subst d0. rewrite (digits_pos _ _ _ Gd) in G. rewrite (digits_pos _ _ _ Gd0) in G0. assert (c0 = t) by congruence. subst c0. apply (N q); auto. }
      assert (AG : agree i q k) by (destruct Wp as (_ & _ & _ & _ & AG & _); apply AG; auto).
      assert (i = 2 * zlen q). { pose proof (zlen_nonneg q). destruct (Z.lt_trichotomy i (2 * zlen q)) as [L|[L|L]]; [|auto|].
        - exfalso. apply ND. apply A. lia.
        - exfalso. apply N1. rewrite <- (AG (2 * zlen q)) by lia. exact N0. }
      assert (nib q i = 0) by congruence. split; [auto|]. split; [congruence|]. split; [auto|]. rewrite <- Ed0. rewrite (Dd0 _ Q0) in *. congruence. }
    destruct (Z.testbit b (0 + 2)) eqn:EB; cbn [negb].
    + destruct (first && (ci =? 0)) eqn:EF.
      * (* the start itself *)
        apply andb_true_iff in EF. destruct EF as [-> E0]. assert (ci = 0) by lia. subst ci.
        assert (D0 : d = 0). { destruct (Z.eq_dec d 0) as [|ND]; [auto|]. exfalso. apply digits_pos in Gd. assert (In 0 (low b d)). { unfold low. apply filter_In. split; [apply digits_In; split; [lia|auto]|lia]. } unfold zlen in Gd. destruct (low b d); [auto|discriminate]. }
        apply (IH j (Branch i b tw) up' k n false eq_refl Kp eq_refl). intros q Hq P. destruct (DIV q Hq P) as (_ & X & _). apply X. rewrite (Dd _ K). auto.
      * left. (* the answer is twig 0 *)
        assert (L0 : In 0 (digits b)) by (apply digits_In; split; [lia|auto]). destruct (In_zget _ _ L0) as [j0 GD]. pose proof (digits_pos _ _ _ GD) as P0.
        assert (low b 0 = []). { unfold low. apply filter_none. intros x Hx. apply digits_In in Hx. lia. } rewrite H in P0. change (zlen (@nil Z)) with 0 in P0. subst j0.
        pose proof Wp as (_ & _ & L2 & F2 & AG & _). destruct (zget_in_range tw 0 ltac:(lia)) as [c0 G0]. destruct (wf_digit _ _ _ _ _ Wp G0) as (d0 & Gd0 & _ & _ & Dd0). assert (d0 = 0) by congruence. subst d0.
        unfold ns_push. rewrite (wf_twig _ _ _ _ _ Wp G0). cbn [rbind ns_st ns_alen].
        pose proof (zget_In _ _ _ G0) as I0. pose proof (wf_child _ _ _ _ Wp I0) as W0.
        (* c0 is a leaf *)
        assert (LF : exists q v, c0 = Leaf q v).
        { destruct c0 as [q v|i0 b0 tw0]; [eauto|]. exfalso. assert (KE : exists k1 k2, In k1 (keys (Branch i0 b0 tw0)) /\ In k2 (keys (Branch i0 b0 tw0)) /\ k1 <> k2).
          { pose proof W0 as (_ & _ & L & _). destruct (zget_in_range tw0 0 ltac:(lia)) as [x Gx]. destruct (zget_in_range tw0 1 ltac:(lia)) as [y Gy].
            destruct (wf_digit _ _ _ _ _ W0 Gx) as (dx & Gdx & _ & _ & Ddx). destruct (wf_digit _ _ _ _ _ W0 Gy) as (dy & Gdy & _ & _ & Ddy).
            assert (dx <> dy). { intros ->. pose proof (digits_pos _ _ _ Gdx). pose proof (digits_pos _ _ _ Gdy). lia. }
            assert (NEx := wf_nonempty x (wf_child _ _ _ _ W0 (zget_In _ _ _ Gx))). assert (NEy := wf_nonempty y (wf_child _ _ _ _ W0 (zget_In _ _ _ Gy))).
            destruct (elems x) as [|[kx vx] lx] eqn:EX; [congruence|]. destruct (elems y) as [|[ky vy] ly] eqn:EY; [congruence|].
            assert (In kx (keys x)) by (unfold keys; rewrite EX; left; auto). assert (In ky (keys y)) by (unfold keys; rewrite EY; left; auto).
            exists kx, ky. split; [apply keys_branch; exists x; split; [eapply zget_In; eauto|auto]|]. split; [apply keys_branch; exists y; split; [eapply zget_In; eauto|auto]|]. intros ->. apply H0. rewrite <- (Ddx ky), <- (Ddy ky); auto. }
          destruct KE as (k1 & k2 & K1 & K2 & NE). apply NE. apply nib0_eq with i; auto.
          - eapply wf_bytes; [exact W0|auto].
          - eapply wf_bytes; [exact W0|auto].
          - apply AG; apply keys_branch; eauto. }
        destruct LF as (q & v & ->). assert (Kq : In q (keys (Branch i b tw))) by (apply keys_branch; exists (Leaf q v); split; [auto|left; auto]).
        assert (Bq : bytes q) by (eapply wf_bytes; [exact Wp|exact Kq]).
        assert (Nk : nib k i <> 0).
        { intros X. assert (k = q) by (apply nib0_eq with i; [exact Bk|exact Bq|lia|exact X|apply Dd0; left; auto|apply AG; auto]). subst q.
          rewrite (Dd _ K) in X. subst d. pose proof (digits_pos _ _ _ Gd) as Y. rewrite H in Y. change (zlen (@nil Z)) with 0 in Y. subst ci. rewrite andb_true_r in EF. subst first. 
          assert (t = Leaf k v) by congruence. subst t. destruct F as [F _]. discriminate. }
        destruct (pprefix_nib q k i) as [P EI]; [exact Bq|exact Bk|lia|apply AG; auto|apply Dd0; left; auto|exact Nk|].
        eexists (mkns ((0, Leaf q v) :: (j, Branch i b tw) :: up') n), q, v, _, _. split; [reflexivity|]. split; [split; [econstructor; eauto|split; [exists 0, ((j, Branch i b tw) :: up'); reflexivity|split; reflexivity]]|].
        split; [exact P|]. intros q' Hq' P'.
        destruct (Z_le_gt_dec (zlen q') (zlen q)) as [|GT]; [auto|]. exfalso.
        assert (Rq : In q' (keys (Branch i b tw))).
        { assert (Bq' : bytes q') by (eapply wf_bytes; [exact W|auto]). destruct (pprefix_agree q' k Bq' Bk P') as (A' & _).
          eapply chain_in; [exact C|exact W|reflexivity|exact Kp|exact Hq'|]. destruct up' as [|[j2 p2] up2]; [exact I|]. destruct p2 as [|i2 b2 tw2]; [exact I|].
          pose proof (chain_index _ _ _ _ _ _ _ _ _ _ W C). eapply agree_le; [|exact A']. lia. }
        destruct (DIV q' Rq P') as (_ & _ & X & _). lia.
    + apply (IH j (Branch i b tw) up' k n false eq_refl Kp eq_refl). intros q Hq P. destruct (DIV q Hq P) as (_ & _ & _ & X). discriminate.
Qed.
