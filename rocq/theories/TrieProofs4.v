(** Proofs about the trie: insertion and deletion. *)
From Verif Require Import Base TrieModel TrieSpec TrieProofs TrieProofs2 TrieProofs3.
From Coq Require Import Sorted.

Lemma mkleaf_spec : forall a key, key_ok key -> mkleaf a key = if a_key a then Ok (Leaf key 0) else Err KNOT_ENOMEM.
Proof.
  intros a key [B L]. unfold mkleaf, KEYLENBITS. cbv zeta. pose proof (zlen_nonneg key). change (Z.shiftl 1 31) with (2 ^ 31).
  replace (zlen key >? 2 ^ 31) with false by lia. destruct (a_key a); cbn [negb]; [|reflexivity].
  rewrite Z.mod_small by lia. unfold zfirstn, zlen. rewrite Nat2Z.id, firstn_all. reflexivity.
Qed.
Lemma mkbranch_ok : forall i b tw, i < TMAX_INDEX -> okbmp b -> mkbranch i b tw = Ok (Branch i b tw).
Proof. intros i b tw H K. unfold mkbranch. rewrite okbmp_mask by auto. replace (i <? TMAX_INDEX) with true by lia. reflexivity. Qed.

Lemma zfirstn_app_exact : forall {A} (l1 l2 : list A) n, n = zlen l1 -> zfirstn n (l1 ++ l2) = l1.
Proof. intros A l1 l2 n ->. unfold zfirstn, zlen. rewrite Nat2Z.id, firstn_app, firstn_all, Nat.sub_diag, firstn_O, app_nil_r. reflexivity. Qed.
Lemma zskipn_app_exact : forall {A} (l1 l2 : list A) n, n = zlen l1 -> zskipn n (l1 ++ l2) = l2.
Proof. intros A l1 l2 n ->. unfold zskipn, zlen. rewrite Nat2Z.id, skipn_app, skipn_all, Nat.sub_diag. reflexivity. Qed.

Lemma keys_app : forall i b l1 l2 k, In k (keys (Branch i b (l1 ++ l2))) <-> (exists c, In c l1 /\ In k (keys c)) \/ (exists c, In c l2 /\ In k (keys c)).
Proof.
  intros. rewrite keys_branch. split.
  - intros (c & H & K). apply in_app_iff in H. destruct H; [left|right]; eauto.
  - intros [(c & H & K)|(c & H & K)]; exists c; split; auto; apply in_app_iff; auto.
Qed.

(** a new twig in a branch *)
Lemma wf_add : forall i b tw key v, wf (Branch i b tw) -> key_ok key -> Z.testbit b (nib key i + 2) = false ->
  (forall k, In k (keys (Branch i b tw)) -> agree i key k) ->
  exists l1 l2, tw = l1 ++ l2 /\ zlen l1 = zlen (low b (nib key i)) /\
    wf (Branch i (Z.lor b (bitof (nib key i))) (l1 ++ Leaf key v :: l2)) /\
    (forall c k, In c l1 -> In k (keys c) -> klt k key) /\ (forall c k, In c l2 -> In k (keys c) -> klt key k).
Proof.
  intros i b tw key v W K E H. pose proof (nib_range key i (proj1 K)) as R. destruct (wf_split i b tw _ W R) as (l1 & m & l2 & -> & L & F1 & F2 & Fm).
  destruct m as [|c [|]]; [|destruct Fm; congruence|destruct Fm]. cbn [app] in *. clear Fm. exists l1, l2. split; [auto|]. split; [auto|].
  pose proof W as (Hi & Kb & Len & F & A & C). apply wf_children in C. split; [|split].
  - cbn [wf]. split; [auto|]. split; [apply okbmp_lor; auto|]. rewrite zlen_app, zlen_cons in *. split; [lia|]. split.
    { rewrite low_lor by auto. apply Forall2_app; auto. constructor; auto. intros k [<-|[]]. auto. }
    split.
    + assert (X : forall k, In k (keys (Branch i (Z.lor b (bitof (nib key i))) (l1 ++ Leaf key v :: l2))) -> k = key \/ In k (keys (Branch i b (l1 ++ l2)))).
      { intros k Hk. apply keys_app in Hk. destruct Hk as [(c & H1 & H2)|(c & [<-|H1] & H2)].
        - right. apply keys_app. eauto.
        - cbn in H2. destruct H2 as [->|[]]; auto.
        - right. apply keys_app. eauto. }
      intros k1 k2 H1 H2. destruct (X _ H1) as [->|I1], (X _ H2) as [->|I2]; [apply agree_refl|auto|apply agree_sym; auto|apply A; auto].
    + apply wf_children. apply Forall_app in C. apply Forall_app. split; [tauto|]. constructor; [exact K|tauto].
  - intros c k Hc Hk. assert (I : In k (keys (Branch i b (l1 ++ l2)))) by (apply keys_app; eauto). apply nlt_klt; [eapply wf_bytes; eauto|apply K|].
    exists i. split; [auto|]. split; [apply agree_sym; auto|]. clear - F1 Hc Hk. assert (Q : forall d, In d (low b (nib key i)) -> d < nib key i) by apply low_lt.
    revert Q. induction F1 as [|d x ds tw R F IH]; intros Q; [destruct Hc|]. destruct Hc as [->|Hc]; [rewrite (R _ Hk); apply Q; cbn; auto|]. apply IH; auto. intros; apply Q; cbn; auto.
  - intros c k Hc Hk. assert (I : In k (keys (Branch i b (l1 ++ l2)))) by (apply keys_app; eauto). apply nlt_klt; [apply K|eapply wf_bytes; eauto|].
    exists i. split; [auto|]. split; [auto|]. clear - F2 Hc Hk. assert (Q : forall d, In d (high b (nib key i)) -> nib key i < d) by apply high_gt.
    revert Q. induction F2 as [|d x ds tw R F IH]; intros Q; [destruct Hc|]. destruct Hc as [->|Hc]; [rewrite (R _ Hk); apply Q; cbn; auto|]. apply IH; auto. intros; apply Q; cbn; auto.
Qed.

(** a new binary branch *)
Lemma digits_bitof : forall e, 0 <= e <= 16 -> digits (bitof e) = [e].
Proof.
  intros e H. replace (bitof e) with (Z.lor 0 (bitof e)) by apply Z.lor_0_l. rewrite low_lor by auto. unfold low, high.
  replace (digits 0) with (@nil Z); [reflexivity|]. unfold digits. symmetry. apply filter_none. intros; apply Z.bits_0.
Qed.
Lemma digits_two : forall e d, 0 <= e <= 16 -> 0 <= d <= 16 -> e <> d ->
  digits (Z.lor (bitof e) (bitof d)) = if e <? d then [e; d] else [d; e].
Proof.
  intros e d He Hd N. rewrite low_lor by auto. unfold low, high. rewrite digits_bitof by auto. cbn [filter].
  destruct (e <? d) eqn:E; destruct (d <? e) eqn:F; try lia; reflexivity.
Qed.
Lemma wf_two : forall i d1 d2 c1 c2 bm, 0 <= i -> okbmp bm -> digits bm = [d1; d2] -> wf c1 -> wf c2 ->
  (forall k, In k (keys c1) -> nib k i = d1) -> (forall k, In k (keys c2) -> nib k i = d2) ->
  (forall k1 k2, In k1 (keys c1 ++ keys c2) -> In k2 (keys c1 ++ keys c2) -> agree i k1 k2) ->
  wf (Branch i bm [c1; c2]).
Proof.
  intros i d1 d2 c1 c2 bm Hi K D W1 W2 R1 R2 A. cbn [wf]. split; [auto|]. split; [auto|]. split; [reflexivity|]. split; [rewrite D; repeat constructor; auto|].
  split; [|cbn; auto]. intros k1 k2 H1 H2. apply A.
  - apply keys_branch in H1. destruct H1 as (c & [<-|[<-|[]]] & H1); apply in_app_iff; auto.
  - apply keys_branch in H2. destruct H2 as (c & [<-|[<-|[]]] & H2); apply in_app_iff; auto.
Qed.

Lemma found_nib : forall root key st idiff L, wf root -> found root key st idiff L ->
  match st with (_, t) :: _ => match t with Branch i _ _ => i <> idiff | _ => True end -> forall k, In k (keys t) -> nib k idiff = nib L idiff | [] => False end.
Proof.
  intros root key st idiff L W [C R A D I T _]. destruct (chain_cons _ _ C) as (ci & t & up & ->). intros N k Hk.
  destruct t as [k0 v|i b tw]; [cbn in *; destruct I as [->|[]]; destruct Hk as [->|[]]; auto|].
  pose proof (chain_top_wf _ _ _ _ W C) as (_ & _ & _ & _ & AG & _). apply (AG _ _ Hk I). lia.
Qed.
Lemma found_sides : forall root key st idiff L, wf root -> key_ok key -> found root key st idiff L ->
  (forall k, In k (map fst (bef st)) -> klt k key) /\ (forall k, In k (map fst (aft st)) -> klt key k).
Proof.
  intros root key st idiff L W K F. pose proof F as [C R A D I T U]. eapply chain_sides; eauto; [apply K|].
  destruct (chain_cons _ _ C) as (ci & t & up & ->). destruct up as [|[j p] up]; [exact Logic.I|]. destruct p as [|i b tw]; [exact Logic.I|].
  exists L. split; [eapply agree_le; [|exact A]; lia|]. assert (CK := chain_keys _ _ C L I). rewrite Forall_forall in CK. exact CK.
Qed.

Definition oom (a : alloc) : Prop := nomem a \/ a_key a = false \/ a_twigs a = false.

Definition ins_post (a : alloc) (t : trie) (key : list Z) : Prop :=
  (exists p t' v, trie_get_ins a t key = Ok (t', Some p) /\ twf t' /\ leaf_at (t_root t') p = Some (key, v) /\
     ((t' = t /\ In (key, v) (content t)) \/
      (v = 0 /\ exists l1 l2, content t = l1 ++ l2 /\ content t' = l1 ++ (key, 0) :: l2))) \/
  (trie_get_ins a t key = Ok (t, None) /\ oom a).

Lemma content_wf : forall t, wf (t_root t) -> t_weight t = zlen (elems (t_root t)) -> content t = elems (t_root t).
Proof. intros t W H. unfold content. pose proof (wf_weight_pos _ W). replace (t_weight t =? 0) with false by lia. reflexivity. Qed.

Lemma get_ins_spec : forall a t key, twf t -> key_ok key -> ins_post a t key.
Proof.
  intros a t key T K. unfold ins_post, trie_get_ins. destruct T as [[H Hr]|[W H]].
  { rewrite H, mkleaf_spec by auto. cbn [Z.eqb]. destruct (a_key a) eqn:E.
    - left. exists [], (mkt (Leaf key 0) (0 + 1)), 0. split; [reflexivity|]. split; [right; split; [exact K|reflexivity]|]. split; [reflexivity|]. right.
      split; [auto|]. exists [], []. unfold content. rewrite H. auto.
    - right. split; [auto|]. right. auto. }
  pose proof (wf_weight_pos _ W) as P. replace (t_weight t =? 0) with false by lia.
  destruct (find_branch_spec a t key W ltac:(lia) K) as [(n & st & ci & v & -> & C & up & ->)|[(n & st & idiff & L & -> & F)|[-> M]]].
  - (* already there *)
    cbn [ns_top ns_st rbind]. rewrite Z.eqb_refl. left. exists (ns_path ((ci, Leaf key v) :: up)), t, v. split; [reflexivity|]. split; [right; auto|].
    assert (X : leaf_at (t_root t) (ns_path ((ci, Leaf key v) :: up)) = Some (key, v)). { rewrite ns_path_spath. apply node_at_leaf. apply chain_path; auto. }
    split; [exact X|]. left. split; [auto|]. rewrite content_wf by auto. eapply leaf_at_in; eauto.
  - pose proof F as [C R A D I T U]. destruct (chain_cons _ _ C) as (ci & nd & up & ->). cbn [ns_top ns_st rbind]. cbv beta iota.
    replace (idiff =? TMAX_INDEX) with false by lia. rewrite mkleaf_spec by auto. destruct (a_key a) eqn:EK; [|right; split; [auto|right; auto]].
    pose proof (chain_top_wf _ _ _ _ W C) as Wn. pose proof (found_agree _ _ _ _ _ W F) as FA. cbv beta iota in FA. pose proof (found_nib _ _ _ _ _ W F) as FN. cbv beta iota in FN.
    pose proof (nib_range key idiff (proj1 K)) as Rk. assert (KL : key_ok L) by (eapply wf_keys_ok; [exact Wn|exact I]). pose proof (nib_range L idiff (proj1 KL)) as RL.
    assert (PL : forall n', wf n' -> (forall k, In k (keys n') -> k = key \/ In k (keys nd)) ->
      exists root', plug ((ci, nd) :: up) n' = Ok root' /\ wf root' /\ elems root' = bef ((ci, nd) :: up) ++ elems n' ++ aft ((ci, nd) :: up) /\ node_at root' (spath ((ci, nd) :: up)) = Some n').
    { intros n' Wn' Hn. apply (plug_spec (t_root t)); auto. destruct up as [|[j p] up]; [exact Logic.I|]. destruct p as [|i b tw]; [exact Logic.I|].
      intros k Hk. destruct (Hn _ Hk) as [->|Hk']; [|exists k; split; [auto|apply agree_refl]]. exists L. split; [exact I|]. eapply agree_le; [|exact A]. lia. }
    assert (FIN : forall root' n' l1 l2 p, elems nd = l1 ++ l2 -> elems n' = l1 ++ (key, 0) :: l2 -> wf root' -> elems root' = bef ((ci, nd) :: up) ++ elems n' ++ aft ((ci, nd) :: up) ->
       node_at root' (spath ((ci, nd) :: up)) = Some n' -> leaf_at n' p = Some (key, 0) ->
       twf (mkt root' (t_weight t + 1)) /\ leaf_at root' (spath ((ci, nd) :: up) ++ p) = Some (key, 0) /\
       exists m1 m2, content t = m1 ++ m2 /\ content (mkt root' (t_weight t + 1)) = m1 ++ (key, 0) :: m2).
    { intros root' n' l1 l2 p E1 E2 Wr Er Np Lp.
      assert (EC : content t = (bef ((ci, nd) :: up) ++ l1) ++ (l2 ++ aft ((ci, nd) :: up))).
      { rewrite content_wf by auto. rewrite (chain_elems _ _ _ _ C), E1. rewrite <- !app_assoc. reflexivity. }
      assert (ER : elems root' = (bef ((ci, nd) :: up) ++ l1) ++ (key, 0) :: (l2 ++ aft ((ci, nd) :: up))).
      { rewrite Er, E2. rewrite <- !app_assoc. reflexivity. }
      assert (WT : t_weight t + 1 = zlen (elems root')).
      { rewrite content_wf in EC by auto. rewrite H, EC, ER. rewrite !zlen_app, zlen_cons, !zlen_app. lia. }
      split; [right; split; auto|]. split.
      - clear - Np Lp. revert root' Np. generalize (spath ((ci, nd) :: up)). induction p0 as [|i q IH]; intros root' Np; cbn in *; [inversion Np; subst; auto|].
        destruct root'; [discriminate|]. destruct (zget tw i); [auto|discriminate].
      - exists (bef ((ci, nd) :: up) ++ l1), (l2 ++ aft ((ci, nd) :: up)). split; [exact EC|]. rewrite content_wf by auto. exact ER. }
    destruct (match nd with Branch i _ _ => i =? idiff | Leaf _ _ => false end) eqn:EB.
    + (* a new twig *)
      destruct nd as [|i b tw]; [discriminate|]. assert (i = idiff) by lia. subst i. destruct T as [_ T]. specialize (T eq_refl).
      rewrite wf_hastwig by auto. cbn [rbind]. rewrite T. pose proof Wn as (_ & Kb & _). rewrite wf_twigoff by auto. cbn [rbind]. rewrite wf_weight by auto. cbn [rbind twigs branch_bmp].
      destruct (a_twigs a) eqn:ET; cbn [negb]; [|right; split; [auto|right; auto]].
      destruct (wf_add idiff b tw key 0 Wn K T FA) as (l1 & l2 & Etw & Ll & Wa & _). rewrite <- Ll. replace (zfirstn (zlen l1) tw) with l1 by (rewrite Etw, zfirstn_app_exact; auto).
      replace (zskipn (zlen l1) tw) with l2 by (rewrite Etw, zskipn_app_exact; auto).
      rewrite mkbranch_ok; [|lia|apply okbmp_lor; auto]. cbn [rbind].
      destruct (PL _ Wa) as (root' & -> & Wr & Er & Np).
      { intros k Hk. apply keys_app in Hk. destruct Hk as [(c & H1 & H2)|(c & [<-|H1] & H2)].
        - right. rewrite Etw. apply keys_app. eauto.
        - cbn in H2. destruct H2 as [->|[]]; auto.
        - right. rewrite Etw. apply keys_app. eauto. }
      cbn [rbind]. left. destruct (FIN root' (Branch idiff (Z.lor b (bitof (nib key idiff))) (l1 ++ Leaf key 0 :: l2)) (flat_map elems l1) (flat_map elems l2) [zlen l1]) as (X1 & X2 & X3); [| |exact Wr|exact Er|exact Np| |].
      * cbn [elems]. rewrite Etw, flat_map_app. reflexivity.
      * cbn [elems]. rewrite flat_map_app. reflexivity.
      * cbn [leaf_at]. rewrite zget_app_r by lia. rewrite Z.sub_diag. reflexivity.
      * exists (ns_path ((ci, Branch idiff b tw) :: up) ++ [zlen l1]), (mkt root' (t_weight t + 1)), 0. split; [reflexivity|]. split; [exact X1|]. split; [rewrite ns_path_spath; exact X2|]. right. auto.
    + (* a new branch *)
      assert (FN' : forall k, In k (keys nd) -> nib k idiff = nib L idiff). { apply FN. destruct nd; [auto|lia]. }
      assert (HT : (match (ci, nd) :: up with _ :: (_, pt) :: _ => let* b := twigbit pt key in hastwig pt b | _ => Ok true end) = Ok true).
      { destruct up as [|[j p] up]; [reflexivity|]. destruct (chain_parent _ _ _ _ _ _ C) as (i & b & tw & -> & G). unfold twigbit. cbn [branch_index rbind].
        pose proof (chain_top_wf _ _ _ _ W (chain_pop _ _ _ _ C)) as Wp. destruct (wf_digit _ _ _ _ _ Wp G) as (d & _ & Rd & Ed & Dd).
        rewrite keybit_nib by apply K. rewrite wf_hastwig by (apply nib_range; apply K). rewrite (A i), (Dd _ I), Ed; [reflexivity|]. pose proof Wp as (Hi & _). lia. }
      cbn [ns_st] in HT |- *. rewrite HT. cbn [rbind negb]. destruct (a_twigs a) eqn:ET; cbn [negb]; [|right; split; [auto|right; auto]].
      set (bm := Z.lor (bitof (nib L idiff)) (bitof (nib key idiff))). assert (Kb : okbmp bm) by (apply okbmp_lor; auto; apply okbmp_bitof; auto).
      pose proof (digits_two (nib L idiff) (nib key idiff) RL Rk ltac:(congruence)) as DT. fold bm in DT.
      rewrite mkbranch_ok by (auto; lia). cbn [rbind]. rewrite !wf_twigoff by auto. unfold low. rewrite DT.
      assert (TW : forall i', (i' = 0 \/ i' = 1) -> twig (Branch idiff bm [Leaf [] 0; Leaf [] 0]) i' = Ok (Leaf [] 0)).
      { intros i' Hi'. unfold twig, branch_weight. rewrite popcount_digits by auto. rewrite DT. replace (zlen (if nib L idiff <? nib key idiff then [nib L idiff; nib key idiff] else [nib key idiff; nib L idiff])) with 2 by (destruct (nib L idiff <? nib key idiff); reflexivity).
        cbn [rbind Z.ltb Z.leb Z.compare andb TWIDTH_BMP Pos.compare Pos.compare_cont]. destruct Hi' as [-> | ->]; reflexivity. }
      destruct (nib L idiff <? nib key idiff) eqn:LT.
      * assert (X1 : filter (fun x => x <? nib L idiff) [nib L idiff; nib key idiff] = []) by (apply filter_none; intros x [<-|[<-|[]]]; lia).
        assert (X2 : filter (fun x => x <? nib key idiff) [nib L idiff; nib key idiff] = [nib L idiff]). { cbn [filter]. rewrite LT. replace (nib key idiff <? nib key idiff) with false by lia. reflexivity. }
        rewrite X1, X2. cbn [rbind]. change (zlen (@nil Z)) with 0. change (zlen [nib L idiff]) with 1. rewrite !TW by auto. cbn [rbind].
        change (zset (zset [Leaf [] 0; Leaf [] 0] 0 nd) 1 (Leaf key 0)) with [nd; Leaf key 0].
        rewrite mkbranch_ok by (auto; lia). cbn [rbind].
        assert (W2 : wf (Branch idiff bm [nd; Leaf key 0])).
        { eapply wf_two; [lia|auto|exact DT|auto|exact K|exact FN'|intros k [<-|[]]; auto|]. cbn [keys map elems fst].
          intros k1 k2 H1 H2. apply in_app_iff in H1. apply in_app_iff in H2. apply agree_trans with key; [apply agree_sym|].
          - destruct H1 as [H1|[<-|[]]]; [apply FA; auto|apply agree_refl].
          - destruct H2 as [H2|[<-|[]]]; [apply FA; auto|apply agree_refl]. }
        destruct (PL _ W2) as (root' & -> & Wr & Er & Np).
        { intros k Hk. apply keys_branch in Hk. destruct Hk as (c & [<-|[<-|[]]] & Hk); [auto|]. cbn in Hk. destruct Hk as [->|[]]; auto. }
        cbn [rbind]. left. destruct (FIN root' (Branch idiff bm [nd; Leaf key 0]) (elems nd) [] [1]) as (Y1 & Y2 & Y3); auto.
        -- rewrite app_nil_r. reflexivity.
        -- exists (ns_path ((ci, nd) :: up) ++ [1]), (mkt root' (t_weight t + 1)), 0. split; [reflexivity|]. split; [exact Y1|]. split; [rewrite ns_path_spath; exact Y2|]. right. auto.
      * assert (X1 : filter (fun x => x <? nib L idiff) [nib key idiff; nib L idiff] = [nib key idiff]). { cbn [filter]. replace (nib key idiff <? nib L idiff) with true by lia. replace (nib L idiff <? nib L idiff) with false by lia. reflexivity. }
        assert (X2 : filter (fun x => x <? nib key idiff) [nib key idiff; nib L idiff] = []) by (apply filter_none; intros x [<-|[<-|[]]]; lia).
        rewrite X1, X2. cbn [rbind]. change (zlen (@nil Z)) with 0. change (zlen [nib key idiff]) with 1. rewrite !TW by auto. cbn [rbind].
        change (zset (zset [Leaf [] 0; Leaf [] 0] 1 nd) 0 (Leaf key 0)) with [Leaf key 0; nd].
        rewrite mkbranch_ok by (auto; lia). cbn [rbind].
        assert (W2 : wf (Branch idiff bm [Leaf key 0; nd])).
        { eapply wf_two; [lia|auto|exact DT|exact K|auto|intros k [<-|[]]; auto|exact FN'|]. cbn [keys map elems fst].
          intros k1 k2 H1 H2. apply in_app_iff in H1. apply in_app_iff in H2. apply agree_trans with key; [apply agree_sym|].
          - destruct H1 as [[<-|[]]|H1]; [apply agree_refl|apply FA; auto].
          - destruct H2 as [[<-|[]]|H2]; [apply agree_refl|apply FA; auto]. }
        destruct (PL _ W2) as (root' & -> & Wr & Er & Np).
        { intros k Hk. apply keys_branch in Hk. destruct Hk as (c & [<-|[<-|[]]] & Hk); [|auto]. cbn in Hk. destruct Hk as [->|[]]; auto. }
        cbn [rbind]. left. destruct (FIN root' (Branch idiff bm [Leaf key 0; nd]) [] (elems nd) [0]) as (Y1 & Y2 & Y3); auto.
        -- cbn. rewrite app_nil_r. reflexivity.
        -- exists (ns_path ((ci, nd) :: up) ++ [0]), (mkt root' (t_weight t + 1)), 0. split; [reflexivity|]. split; [exact Y1|]. split; [rewrite ns_path_spath; exact Y2|]. right. auto.
  - right. split; [auto|]. left. auto.
Qed.

(** *** deletion *)
Lemma del_loop_spec : forall fuel root ci t up b key, wf root -> bytes key -> chain root ((ci, t) :: up) -> (height t <= fuel)%nat ->
  (match up with (_, Branch i _ _) :: _ => b = bitof (nib key i) /\ (forall k, In k (keys t) -> nib k i = nib key i) | _ => True end) ->
  exists r, del_loop fuel ((ci, t) :: up) b key = Ok r /\
    match r with
    | None => ~ In key (keys t)
    | Some (st, b') => exists cj k v up', st = (cj, Leaf k v) :: up' /\ chain root st /\ (In key (keys t) -> key = k) /\
        (match up' with (_, Branch i _ _) :: _ => b' = bitof (nib key i) | _ => True end)
    end.
Proof.
  induction fuel as [|fuel IH]; intros root ci t up b key W B C Hf Hu; [destruct t; cbn in Hf; lia|]. cbn [del_loop]. destruct t as [k v|i bm tw]; cbn [isbranch].
  - eexists. split; [reflexivity|]. exists ci, k, v, up. split; [auto|]. split; [auto|]. split; [cbn; intros [E|[]]; auto|].
    destruct up as [|[j p] up]; [exact I|]. destruct p; [exact I|]. tauto.
  - pose proof (chain_top_wf _ _ _ _ W C) as Wt. pose proof Wt as (Hi & K & _). unfold twigbit. cbn [branch_index rbind]. rewrite keybit_nib by auto. pose proof (nib_range key i B) as R.
    rewrite wf_hastwig by auto. cbn [rbind]. destruct (Z.testbit bm (nib key i + 2)) eqn:E; cbn [negb].
    + rewrite wf_twigoff by auto. cbn [rbind]. destruct (wf_has _ _ _ _ Wt R E) as (c & G & Rc). rewrite (wf_twig _ _ _ _ _ Wt G). cbn [rbind].
      pose proof (zget_In _ _ _ G) as Ic.
      destruct (IH root (zlen (low bm (nib key i))) c ((ci, Branch i bm tw) :: up) (bitof (nib key i)) key) as (r & Er & Sr); auto.
      { econstructor; eauto. } { pose proof (height_child i bm tw c Ic); lia. }
      rewrite Er. eexists. split; [reflexivity|].
      assert (X : In key (keys (Branch i bm tw)) -> In key (keys c)).
      { intros H. apply keys_branch in H. destruct H as (c' & Ic' & H). apply In_nth_error in Ic'. destruct Ic' as [n Hn].
        assert (G' : zget tw (Z.of_nat n) = Some c') by (unfold zget; replace (Z.of_nat n <? 0) with false by lia; rewrite Nat2Z.id; auto).
        destruct (wf_digit _ _ _ _ _ Wt G') as (d & Gd & _ & _ & Rd). specialize (Rd _ H). subst d. apply digits_pos in Gd.
        rewrite <- Gd in G. rewrite G in G'. inversion G'; subst. auto. }
      destruct r as [[st b']|]; [|auto]. destruct Sr as (cj & k & v & up' & -> & C' & Q & Bb). exists cj, k, v, up'. auto 6.
    + eexists. split; [reflexivity|]. intros H. apply keys_branch in H. destruct H as (c' & Ic' & H). apply In_nth_error in Ic'. destruct Ic' as [n Hn].
      assert (G' : zget tw (Z.of_nat n) = Some c') by (unfold zget; replace (Z.of_nat n <? 0) with false by lia; rewrite Nat2Z.id; auto).
      destruct (wf_digit _ _ _ _ _ Wt G') as (d & _ & _ & Ed & Rd). specialize (Rd _ H). congruence.
Qed.

(** a branch without one twig *)
Lemma wf_remove : forall i b tw ci c d, wf (Branch i b tw) -> zget tw ci = Some c -> zget (digits b) ci = Some d -> 3 <= zlen tw ->
  wf (Branch i (Z.land b (Z.lnot (bitof d))) (zfirstn ci tw ++ zskipn (ci + 1) tw)).
Proof.
  intros i b tw ci c d W G Gd L3. assert (Rd : 0 <= d <= 16 /\ Z.testbit b (d + 2) = true) by (apply digits_In; eapply zget_In; eauto). destruct Rd as [Rd Td].
  destruct (wf_split i b tw d W Rd) as (l1 & m & l2 & Etw & L & F1 & F2 & Fm). destruct m as [|c' [|]]; [congruence| |destruct Fm].
  apply digits_pos in Gd. rewrite <- Gd in L. rewrite Etw. cbn [app]. rewrite zfirstn_app_exact by auto.
  replace (l1 ++ c' :: l2) with ((l1 ++ [c']) ++ l2) by (rewrite <- app_assoc; reflexivity). rewrite zskipn_app_exact by (rewrite zlen_app; cbn; lia).
  pose proof W as (Hi & Kb & Len & F & A & C). apply wf_children in C. rewrite Etw in *. rewrite !zlen_app in *. cbn [wf]. split; [auto|]. split; [apply okbmp_clear; auto|].
  change (zlen [c']) with 1 in L3. split; [rewrite zlen_app; lia|]. split; [rewrite low_clear by auto; apply Forall2_app; auto|]. split.
  - assert (X : forall k, In k (keys (Branch i (Z.land b (Z.lnot (bitof d))) (l1 ++ l2))) -> In k (keys (Branch i b (l1 ++ [c'] ++ l2)))).
    { intros k Hk. apply keys_app in Hk. apply keys_app. destruct Hk as [Hk|(x & Hx & Hk)]; [auto|]. right. exists x. split; [cbn; auto|auto]. }
    intros k1 k2 H1 H2. apply A; auto.
  - apply wf_children. apply Forall_app in C. destruct C as [C1 C2]. apply Forall_app in C2. apply Forall_app. tauto.
Qed.

Lemma del_found_spec : forall t ci k v up b, wf (t_root t) -> t_weight t = zlen (elems (t_root t)) -> chain (t_root t) ((ci, Leaf k v) :: up) ->
  (match up with (_, Branch i _ _) :: _ => b = bitof (nib k i) | _ => True end) ->
  exists t' l1 l2, del_found t ((ci, Leaf k v) :: up) b = Ok (t', v) /\ twf t' /\ content t = l1 ++ (k, v) :: l2 /\ content t' = l1 ++ l2.
Proof.
  intros t ci k v up b W H C Hb. rewrite content_wf by auto. pose proof (chain_elems _ _ _ _ C) as CE. cbn [del_found]. cbv zeta. destruct up as [|[j p] up].
  - assert (ER : t_root t = Leaf k v) by (inversion C; auto). assert (Hw : t_weight t = 1) by (rewrite H, ER; reflexivity). rewrite Hw, ER. change (1 - 1 =? 0) with true. cbv iota.
    exists (mkt empty_root (1 - 1)), [], []. split; [reflexivity|]. split; [left; split; reflexivity|]. split; [reflexivity|reflexivity].
  - destruct (chain_parent _ _ _ _ _ _ C) as (i & bm & tw & -> & G). pose proof (chain_pop _ _ _ _ C) as Cp. pose proof (chain_top_wf _ _ _ _ W Cp) as Wp.
    cbn [branch_index branch_bmp twigs rbind]. rewrite wf_weight by auto. cbn [rbind]. pose proof (zget_some _ _ _ G) as Rg. replace ((0 <=? ci) && (ci <? zlen tw)) with true by lia. cbn [negb].
    assert (FIN : forall p', wf p' -> (forall k', In k' (keys p') -> In k' (keys (Branch i bm tw))) -> elems p' = flat_map elems (zfirstn ci tw) ++ flat_map elems (zskipn (ci + 1) tw) ->
      exists t' l1 l2, (let* r := plug ((j, Branch i bm tw) :: up) p' in Ok (mkt r (t_weight t - 1), v)) = Ok (t', v) /\ twf t' /\ elems (t_root t) = l1 ++ (k, v) :: l2 /\ content t' = l1 ++ l2).
    { intros p' Wp' Hk Ep. destruct (plug_spec (t_root t) j (Branch i bm tw) up p' W Cp Wp') as (root' & -> & Wr & Er & _).
      { destruct up as [|[j2 p2] up]; [exact I|]. destruct p2; [exact I|]. intros k' Hk'. exists k'. split; [auto|apply agree_refl]. }
      cbn [rbind]. exists (mkt root' (t_weight t - 1)), (bef ((j, Branch i bm tw) :: up) ++ flat_map elems (zfirstn ci tw)), (flat_map elems (zskipn (ci + 1) tw) ++ aft ((j, Branch i bm tw) :: up)).
      assert (E1 : elems (t_root t) = (bef ((j, Branch i bm tw) :: up) ++ flat_map elems (zfirstn ci tw)) ++ (k, v) :: flat_map elems (zskipn (ci + 1) tw) ++ aft ((j, Branch i bm tw) :: up)).
      { rewrite (chain_elems _ _ _ _ Cp). cbn [elems]. rewrite (flat_split _ _ _ G). rewrite <- !app_assoc. reflexivity. }
      assert (E2 : elems root' = (bef ((j, Branch i bm tw) :: up) ++ flat_map elems (zfirstn ci tw)) ++ flat_map elems (zskipn (ci + 1) tw) ++ aft ((j, Branch i bm tw) :: up)).
      { rewrite Er, Ep. rewrite <- !app_assoc. reflexivity. }
      assert (WT : t_weight t - 1 = zlen (elems root')). { rewrite H, E1, E2. rewrite !zlen_app. rewrite zlen_cons. rewrite !zlen_app. lia. }
      split; [reflexivity|]. split; [right; split; auto|]. split; [exact E1|]. rewrite content_wf by auto. exact E2. }
    destruct (wf_digit _ _ _ _ _ Wp G) as (d & Gd & Rd & Td & Dd). assert (Ed : nib k i = d) by (apply Dd; cbn; auto). pose proof Wp as (_ & _ & Len & _).
    destruct (zlen tw =? 2) eqn:E2.
    + assert (exists c0 c1, tw = [c0; c1]) as (c0 & c1 & ->). { clear - E2. destruct tw as [|c0 [|c1 [|c2 tw]]]; rewrite ?zlen_cons, ?zlen_nil in E2; [lia|lia|eauto|]. pose proof (zlen_nonneg tw). lia. }
      change (zlen [c0; c1]) with 2 in Rg. assert (ci = 0 \/ ci = 1) as [-> | ->] by lia.
      * change (zget [c0; c1] (1 - 0)) with (Some c1). cbn [rbind]. apply FIN.
        -- eapply wf_child; [exact Wp|cbn; auto].
        -- intros k' Hk'. apply keys_branch. exists c1. cbn; auto.
        -- change (zfirstn 0 [c0; c1]) with (@nil node). change (zskipn (0 + 1) [c0; c1]) with [c1]. cbn. rewrite app_nil_r. reflexivity.
      * change (zget [c0; c1] (1 - 1)) with (Some c0). cbn [rbind]. apply FIN.
        -- eapply wf_child; [exact Wp|cbn; auto].
        -- intros k' Hk'. apply keys_branch. exists c0. cbn; auto.
        -- change (zfirstn 1 [c0; c1]) with [c0]. change (zskipn (1 + 1) [c0; c1]) with (@nil node). cbn. rewrite !app_nil_r. reflexivity.
    + cbn [rbind]. rewrite Hb, Ed. apply FIN.
      * eapply wf_remove; eauto. lia.
      * intros k' Hk'. apply keys_app in Hk'. apply keys_branch. destruct Hk' as [(x & Hx & Hk')|(x & Hx & Hk')]; exists x; split; auto; unfold zfirstn, zskipn in Hx.
        -- rewrite <- (firstn_skipn (Z.to_nat ci) tw). apply in_app_iff. auto.
        -- rewrite <- (firstn_skipn (Z.to_nat (ci + 1)) tw). apply in_app_iff. auto.
      * cbn [elems]. rewrite flat_map_app. reflexivity.
Qed.

Lemma del_spec : forall t key, twf t -> bytes key ->
  (exists t' v l1 l2, trie_del t key = Ok (t', v) /\ twf t' /\ content t = l1 ++ (key, v) :: l2 /\ content t' = l1 ++ l2) \/
  (trie_del t key = Err KNOT_ENOENT /\ forall v, ~ In (key, v) (content t)).
Proof.
  intros t key T B. unfold trie_del. destruct T as [[H Hr]|[W H]].
  { rewrite H. right. split; [auto|]. unfold content. rewrite H. cbn. auto. }
  pose proof (wf_weight_pos _ W) as P. replace (t_weight t =? 0) with false by lia.
  destruct (del_loop_spec (height (t_root t)) (t_root t) 0 (t_root t) [] 0 key W B (chain_root _) (le_n _) I) as (r & -> & S). cbn [rbind].
  destruct r as [[st b]|].
  - destruct S as (cj & k & v & up & -> & C & Q & Hb). cbn [tkey rbind].
    assert (Ik : In (k, v) (elems (t_root t))). { rewrite (chain_elems _ _ _ _ C). apply in_app_iff. right. cbn. auto. }
    assert (Bk : bytes k) by (eapply wf_bytes; [exact W|eapply in_keys; eauto]).
    destruct (key_cmp key k =? 0) eqn:E; cbn [negb].
    + apply key_cmp_eq in E; auto. subst k. left. destruct (del_found_spec t cj key v up b W H C Hb) as (t' & l1 & l2 & E & T' & E1 & E2). exists t', v, l1, l2. auto.
    + right. split; [auto|]. intros v' I'. rewrite content_wf in I' by auto. apply in_keys in I'. apply Q in I'. subst k.
      assert (X : (key_cmp key key =? 0) = true) by (apply key_cmp_eq; auto). congruence.
  - right. split; [auto|]. intros v' I'. rewrite content_wf in I' by auto. apply in_keys in I'. auto.
Qed.
