(** Proofs about the trie: node stacks, insertion and deletion. *)
From Verif Require Import Base TrieModel TrieSpec TrieProofs TrieProofs2.
From Coq Require Import Sorted.

Notation stack := (list (Z * node)).

(** a stack is a way from the root down *)
Inductive chain (root : node) : stack -> Prop :=
| chain_root : chain root [(0, root)]
| chain_down : forall j i b tw c ci up, chain root ((j, Branch i b tw) :: up) -> zget tw ci = Some c ->
    chain root ((ci, c) :: (j, Branch i b tw) :: up).

(** what is left and right of the top *)
Fixpoint bef (st : stack) : list (list Z * Z) :=
  match st with
  | [] => []
  | (ci, _) :: up =>
    bef up ++ match up with (_, Branch _ _ tw) :: _ => flat_map elems (zfirstn ci tw) | _ => [] end
  end.
Fixpoint aft (st : stack) : list (list Z * Z) :=
  match st with
  | [] => []
  | (ci, _) :: up =>
    match up with (_, Branch _ _ tw) :: _ => flat_map elems (zskipn (ci + 1) tw) | _ => [] end ++ aft up
  end.

Lemma chain_cons : forall root st, chain root st -> exists ci t up, st = (ci, t) :: up.
Proof. intros root st H. inversion H; eauto. Qed.
Lemma chain_pop : forall root e f up, chain root (e :: f :: up) -> chain root (f :: up).
Proof. intros root e f up H. inversion H; subst. auto. Qed.
Lemma chain_suffix : forall root pre st, chain root (pre ++ st) -> st <> [] -> chain root st.
Proof.
  induction pre as [|e pre IH]; intros st H N; [auto|]. cbn in H. apply IH; auto. destruct (pre ++ st) as [|f up] eqn:E.
  - apply app_eq_nil in E. tauto.
  - eapply chain_pop; eauto.
Qed.
Lemma chain_wf : forall root st, wf root -> chain root st -> Forall (fun e => wf (snd e)) st.
Proof.
  intros root st W C. induction C as [|j i b tw c ci up C IH G].
  - constructor; auto.
  - constructor; auto. inversion IH; subst. cbn [snd] in *. eapply wf_child; eauto. eapply zget_In; eauto.
Qed.
Lemma chain_top_wf : forall root ci t up, wf root -> chain root ((ci, t) :: up) -> wf t.
Proof. intros. eapply chain_wf in H0; eauto. inversion H0; auto. Qed.
Lemma chain_parent : forall root ci t j p up, chain root ((ci, t) :: (j, p) :: up) ->
  exists i b tw, p = Branch i b tw /\ zget tw ci = Some t.
Proof. intros. inversion H; subst. eauto 6. Qed.
Lemma chain_elems : forall root ci t up, chain root ((ci, t) :: up) -> elems root = bef ((ci, t) :: up) ++ elems t ++ aft ((ci, t) :: up).
Proof.
  intros root ci t up H. remember ((ci, t) :: up) as st eqn:E. revert ci t up E. induction H as [|j i b tw c ci up C IH G]; intros ci' t' up' E; inversion E; subst.
  - cbn. rewrite app_nil_r. reflexivity.
  - rewrite (IH _ _ _ eq_refl). clear IH E. cbn [elems]. rewrite (flat_split _ _ _ G).
    change (bef ((ci', t') :: (j, Branch i b tw) :: up)) with (bef ((j, Branch i b tw) :: up) ++ flat_map elems (zfirstn ci' tw)).
    change (aft ((ci', t') :: (j, Branch i b tw) :: up)) with (flat_map elems (zskipn (ci' + 1) tw) ++ aft ((j, Branch i b tw) :: up)).
    rewrite <- !app_assoc. reflexivity.
Qed.
Lemma chain_keys : forall root st, chain root st -> forall k, match st with (_, t) :: _ => In k (keys t) | [] => False end ->
  Forall (fun e => In k (keys (snd e))) st.
Proof.
  intros root st C. induction C as [|j i b tw c ci up C IH G]; intros k H.
  - constructor; auto.
  - constructor; [auto|]. apply IH. apply keys_branch. exists c. split; [eapply zget_In; eauto|auto].
Qed.
(** indices grow towards the top *)
Definition idx (t : node) : Z := match t with Branch i _ _ => i | Leaf _ _ => TMAX_INDEX end.
Lemma chain_index : forall root ci i b tw j i' b' tw' up, wf root -> chain root ((ci, Branch i b tw) :: (j, Branch i' b' tw') :: up) -> i' < i.
Proof.
  intros root ci i b tw j i' b' tw' up W C. pose proof (chain_wf _ _ W C) as F. inversion F as [|? ? _ F2]; subst. inversion F2; subst. cbn [snd] in *.
  destruct (chain_parent _ _ _ _ _ _ C) as (x & y & z & E & G). inversion E; subst. eapply wf_index; [eassumption|]. eapply zget_In; eauto.
Qed.

(** the address of the top *)
Fixpoint spath (st : stack) : path :=
  match st with
  | [] => []
  | (ci, _) :: up => match up with [] => [] | _ => spath up ++ [ci] end
  end.
Lemma ns_path_spath : forall st, ns_path st = spath st.
Proof.
  unfold ns_path. induction st as [|[ci t] up IH]; [reflexivity|]. cbn [map rev spath]. destruct up as [|e up]; [reflexivity|].
  rewrite <- IH. cbn [map rev fst]. destruct (rev (map fst up) ++ [fst e]) eqn:E; [apply app_eq_nil in E; destruct E; discriminate|]. reflexivity.
Qed.
Lemma leaf_at_app : forall p q t, leaf_at t (p ++ q) = (fix go t p := match p with [] => leaf_at t q | i :: p => match t with Branch _ _ tw => match zget tw i with Some c => go c p | None => None end | _ => None end end) t p.
Proof. induction p as [|i p IH]; intros q t; [reflexivity|]. cbn [app leaf_at]. destruct t; [reflexivity|]. destruct (zget tw i); auto. Qed.
Definition node_at : node -> path -> option node :=
  fix go t p := match p with [] => Some t | i :: p => match t with Branch _ _ tw => match zget tw i with Some c => go c p | None => None end | _ => None end end.
Lemma node_at_app : forall p q t, node_at t (p ++ q) = match node_at t p with Some c => node_at c q | None => None end.
Proof. induction p as [|i p IH]; intros q t; [reflexivity|]. cbn [app node_at]. destruct t; [reflexivity|]. destruct (zget tw i); auto. Qed.
Lemma node_at_leaf : forall p t k v, node_at t p = Some (Leaf k v) -> leaf_at t p = Some (k, v).
Proof.
  induction p as [|i p IH]; intros t k v H; cbn in *.
  - inversion H; subst. reflexivity.
  - destruct t; [discriminate|]. destruct (zget tw i); [auto|discriminate].
Qed.
Lemma chain_path : forall root ci t up, chain root ((ci, t) :: up) -> node_at root (spath ((ci, t) :: up)) = Some t.
Proof.
  intros root ci t up C. remember ((ci, t) :: up) as st eqn:E. revert ci t up E. induction C as [|j i b tw c ci up C IH G]; intros ci' t' up' E; inversion E; subst.
  - reflexivity.
  - change (spath ((ci', t') :: (j, Branch i b tw) :: up)) with (spath ((j, Branch i b tw) :: up) ++ [ci']).
    rewrite node_at_app, (IH _ _ _ eq_refl). cbn. rewrite G. reflexivity.
Qed.

(** *** replacing the top of a stack *)
Lemma plug_spec : forall root ci t up n, wf root -> chain root ((ci, t) :: up) -> wf n ->
  (match up with (_, Branch i _ _) :: _ => forall k, In k (keys n) -> exists k0, In k0 (keys t) /\ agree (i + 1) k k0 | _ => True end) ->
  exists root', plug ((ci, t) :: up) n = Ok root' /\ wf root' /\
    elems root' = bef ((ci, t) :: up) ++ elems n ++ aft ((ci, t) :: up) /\
    node_at root' (spath ((ci, t) :: up)) = Some n.
Proof.
  intros root ci t up n W C. remember ((ci, t) :: up) as st eqn:E. revert ci t up n E. induction C as [|j i b tw c ci up C IH G]; intros ci' t' up' n E Wn H; inversion E; subst.
  - exists n. split; [reflexivity|]. split; [auto|]. split; [|reflexivity]. cbn [bef aft app]. rewrite !app_nil_r. reflexivity.
  - clear E. assert (Wp : wf (Branch i b tw)) by exact (chain_top_wf _ _ _ _ W C). pose proof (zget_some _ _ _ G) as Rg.
    destruct (IH j (Branch i b tw) up (Branch i b (zset tw ci' n)) eq_refl) as (root' & Er & Wr & El & Np).
    + eapply wf_replace; eauto.
    + destruct up as [|[j2 p2] up]; [exact I|]. destruct (chain_parent _ _ _ _ _ _ C) as (i2 & b2 & tw2 & -> & G2).
      pose proof (chain_index _ _ _ _ _ _ _ _ _ _ W C) as LT. intros k Hk. apply keys_branch in Hk. destruct Hk as (x & Ix & Hk).
      apply zset_In in Ix. destruct Ix as [->|Ix].
      * destruct (H _ Hk) as (k0 & H0 & A0). exists k0. split; [apply keys_branch; exists t'; split; [eapply zget_In; eauto|auto]|]. eapply agree_le; [|exact A0]. lia.
      * exists k. split; [apply keys_branch; eauto|apply agree_refl].
    + exists root'. split; [exact Er|]. split; [exact Wr|]. split.
      * rewrite El. cbn [elems]. rewrite (zset_split _ _ _ n G).
        change (bef ((ci', t') :: (j, Branch i b tw) :: up)) with (bef ((j, Branch i b tw) :: up) ++ flat_map elems (zfirstn ci' tw)).
        change (aft ((ci', t') :: (j, Branch i b tw) :: up)) with (flat_map elems (zskipn (ci' + 1) tw) ++ aft ((j, Branch i b tw) :: up)).
        rewrite <- !app_assoc. reflexivity.
      * change (spath ((ci', t') :: (j, Branch i b tw) :: up)) with (spath ((j, Branch i b tw) :: up) ++ [ci']).
        rewrite node_at_app, Np. cbn. rewrite zget_zset by lia. rewrite Z.eqb_refl. reflexivity.
Qed.

(** *** the way down *)
Definition nomem (a : alloc) : Prop := exists n, a_stack a n = false.
Lemma ns_longer_spec : forall a ns, (exists n, ns_longer a ns = Ok (mkns (ns_st ns) n)) \/ (ns_longer a ns = Err KNOT_ENOMEM /\ nomem a).
Proof.
  intros a [st n]. unfold ns_longer. cbn [ns_st ns_alen]. destruct (zlen st <? n); [left; eauto|]. cbv zeta.
  destruct (a_stack a (n * 2)) eqn:E; [left; eauto|right]. split; [auto|]. exists (n * 2). auto.
Qed.

(** below the top, the twig was chosen according to the key whenever there is one *)
Definition follows (key L : list Z) (e : Z * node) : Prop :=
  match snd e with Branch i b _ => Z.testbit b (nib key i + 2) = true -> nib L i = nib key i | Leaf _ _ => False end.

Lemma find_down_spec : forall a fuel root st n key ci t up, wf root -> bytes key -> chain root st -> st = (ci, t) :: up -> (height t <= fuel)%nat ->
  (exists st' n' pre L v cj, find_down a fuel (mkns st n) key = Ok (mkns st' n') /\ chain root st' /\ st' = (cj, Leaf L v) :: pre /\
     (exists ext, st' = ext ++ st) /\
     ((forall e, In e up -> follows key L e) -> forall e, In e pre -> follows key L e)) \/
  (find_down a fuel (mkns st n) key = Err KNOT_ENOMEM /\ nomem a).
Proof.
  induction fuel as [|fuel IH]; intros root st n key ci t up W B C -> Hf; [destruct t; cbn in Hf; lia|]. cbn [find_down ns_top ns_st rbind].
  destruct t as [k v|i b tw]; cbn [isbranch].
  - left. exists ((ci, Leaf k v) :: up), n, up, k, v, ci. split; [reflexivity|]. split; [auto|]. split; [auto|]. split; [exists []; auto|]. auto.
  - pose proof (chain_top_wf _ _ _ _ W C) as Wt. pose proof Wt as (Hi & K & Ltw & _).
    destruct (ns_longer_spec a (mkns ((ci, Branch i b tw) :: up) n)) as [[n1 ->]|[-> M]]; cbn [rbind]; [|right; auto]. cbn [ns_st ns_alen].
    unfold twigbit. cbn [branch_index rbind]. rewrite keybit_nib by auto. pose proof (nib_range key i B) as R.
    rewrite wf_hastwig by auto. cbn [rbind].
    assert (S : exists o c, (if Z.testbit b (nib key i + 2) then twigoff (Branch i b tw) (bitof (nib key i)) else Ok 0) = Ok o /\ zget tw o = Some c /\
        (Z.testbit b (nib key i + 2) = true -> forall k, In k (keys c) -> nib k i = nib key i)).
    { destruct (Z.testbit b (nib key i + 2)) eqn:E.
      - destruct (wf_has _ _ _ _ Wt R E) as (c & G & Rc). exists (zlen (low b (nib key i))), c. split; [apply wf_twigoff; auto|]. auto.
      - destruct (zget_in_range tw 0 ltac:(lia)) as [c G]. exists 0, c. split; [auto|]. split; [auto|]. discriminate. }
    destruct S as (o & c & -> & G & Rc). cbn [rbind]. unfold ns_push. rewrite (wf_twig _ _ _ _ _ Wt G). cbn [rbind ns_st ns_alen].
    pose proof (zget_In _ _ _ G) as Ic. pose proof (height_child i b tw c Ic) as Hc.
    destruct (IH root ((o, c) :: (ci, Branch i b tw) :: up) n1 key o c ((ci, Branch i b tw) :: up)) as [(st' & n' & pre & L & v & cj & E & C' & -> & (ext & Ex) & Q)|[E M]]; auto.
    + econstructor; eauto.
    + lia.
    + left. exists ((cj, Leaf L v) :: pre), n', pre, L, v, cj. split; [exact E|]. split; [auto|]. split; [auto|]. split; [exists (ext ++ [(o, c)]); rewrite <- app_assoc; exact Ex|].
      intros H e He. apply Q; auto. intros e' [<-|He']; [|auto]. unfold follows. cbn [snd]. intros T. apply (Rc T).
      assert (X : In L (keys c)). { assert (CK := chain_keys _ _ C' L). cbv beta iota in CK. assert (In L (keys (Leaf L v))) by (cbn; auto). specialize (CK H0). rewrite Forall_forall in CK.
        apply (CK (o, c)). rewrite Ex. apply in_app_iff. right. cbn. auto. }
      auto.
Qed.

Lemma climb_spec : forall root st index, wf root -> chain root st ->
  exists pre st', climb st index = Ok st' /\ st = pre ++ st' /\ st' <> [] /\
    (pre = [] \/ exists ci i b tw up, st' = (ci, Branch i b tw) :: up /\ index <= i) /\
    (forall e f up, st' = e :: f :: up -> exists i b tw, snd f = Branch i b tw /\ i < index).
Proof.
  intros root st index W C. induction C as [|j i b tw c ci up C IH G].
  - exists [], [(0, root)]. split; [reflexivity|]. split; [auto|]. split; [congruence|]. split; [auto|]. intros; discriminate.
  - cbn [climb branch_index rbind]. destruct (i <? index) eqn:E.
    + exists [], ((ci, c) :: (j, Branch i b tw) :: up). split; [reflexivity|]. split; [auto|]. split; [congruence|]. split; [auto|].
      intros e f up' X. inversion X; subst. exists i, b, tw. split; [auto|lia].
    + destruct IH as (pre & st' & Ec & Es & N & T & P). exists ((ci, c) :: pre), st'. split; [exact Ec|]. split; [cbn; f_equal; auto|]. split; [auto|].
      split; [|auto]. right. destruct T as [->|T]; [|auto]. cbn in Es. subst st'. exists j, i, b, tw, up. split; [auto|lia].
Qed.

(** what ns_find_branch finds: either the leaf with the key, or the node t where the key leaves the
    tree: all keys of the subtree agree with the key up to the difference, all parents branch before it *)
Record found (root : node) (key : list Z) (st : stack) (idiff : Z) (L : list Z) : Prop := mkfound {
  fd_chain : chain root st;
  fd_range : 0 <= idiff < TMAX_INDEX;
  fd_agree : agree idiff key L;
  fd_diff : nib key idiff <> nib L idiff;
  fd_in : match st with (_, t) :: _ => In L (keys t) | [] => False end;
  fd_top : match st with (_, t) :: _ => match t with Branch i b _ => idiff <= i /\ (i = idiff -> Z.testbit b (nib key i + 2) = false) | Leaf _ _ => True end | [] => False end;
  fd_up : match st with _ :: (_, p) :: _ => match p with Branch i _ _ => i < idiff | Leaf _ _ => False end | _ => True end
}.

Lemma find_branch_spec : forall a t key, wf (t_root t) -> 0 < t_weight t -> key_ok key ->
  (exists n st ci v, ns_find_branch a (ns_init t) key = Ok (mkns st n, TMAX_INDEX, keybit TMAX_INDEX key, keybit TMAX_INDEX key) /\
     chain (t_root t) st /\ exists up, st = (ci, Leaf key v) :: up) \/
  (exists n st idiff L, ns_find_branch a (ns_init t) key = Ok (mkns st n, idiff, bitof (nib L idiff), bitof (nib key idiff)) /\
     found (t_root t) key st idiff L) \/
  (ns_find_branch a (ns_init t) key = Err KNOT_ENOMEM /\ nomem a).
Proof.
  intros a t key W P K. unfold ns_find_branch, ns_init. replace (t_weight t >? 0) with true by lia. cbn [ns_top ns_st rbind].
  destruct (find_down_spec a (height (t_root t)) (t_root t) [(0, t_root t)] 250 key 0 (t_root t) []) as [(st & n & pre & L & v & cj & E & C & Est & _ & Q)|[E M]]; auto; try apply K.
  - constructor.
  - rewrite E. cbn [rbind ns_top ns_st]. assert (Lk : In L (keys (t_root t))).
    { assert (CK := chain_keys _ _ C L). rewrite Est in CK at 1. cbv beta iota in CK. specialize (CK ltac:(cbn; auto)). rewrite Forall_forall in CK.
      pose proof (chain_elems (t_root t) cj (Leaf L v) pre ltac:(rewrite <- Est; auto)) as X. unfold keys. rewrite X. rewrite !map_app. cbn. apply in_app_iff. right. cbn. auto. }
    assert (KL : key_ok L) by (eapply wf_keys_ok; eauto). unfold ns_top. cbn [ns_st ns_alen]. rewrite Est. cbn [rbind tkey]. rewrite <- Est.
    destruct (diff_spec key L K KL) as [[<- ->]|(NE & R & A & D)].
    + left. rewrite Z.eqb_refl. cbn [rbind]. exists n, st, cj, v. split; [|split; [auto|eauto]].
      replace (find_asserts st TMAX_INDEX) with true; [reflexivity|]. rewrite Est in C |- *. destruct pre as [|[j p] pre]; [reflexivity|].
      destruct (chain_parent _ _ _ _ _ _ C) as (i & b & tw & -> & _). cbn [find_asserts]. rewrite Z.eqb_refl, Bool.orb_true_r. reflexivity.
    + right. left. replace (diff_index key L =? TMAX_INDEX) with false by lia. set (idiff := diff_index key L) in *.
      destruct (climb_spec (t_root t) st idiff W C) as (pc & st' & -> & Es & N & T & U). cbn [rbind].
      assert (C' : chain (t_root t) st') by (rewrite Es in C; eapply chain_suffix; eauto).
      exists n, st', idiff, L.
      assert (FD : found (t_root t) key st' idiff L).
      { constructor; auto.
        - assert (CK := chain_keys _ _ C L). rewrite Est in CK at 1. cbv beta iota in CK. specialize (CK ltac:(cbn; auto)). rewrite Forall_forall in CK.
          destruct (chain_cons _ _ C') as (c0 & t0 & up0 & ->). apply (CK (c0, t0)). rewrite Es. apply in_app_iff. right. cbn; auto.
        - destruct (chain_cons _ _ C') as (c0 & t0 & up0 & E0). rewrite E0. destruct T as [->|(c1 & i & b & tw & up & E1 & Hi)].
          + cbn in Es. rewrite <- Es, Est in E0. inversion E0; subst. exact I.
          + rewrite E1 in E0. inversion E0; subst c0 t0 up0. split; [auto|]. intros ->. apply Bool.not_true_iff_false. intros X.
            destruct pc as [|e pc].
            * cbn in Es. rewrite <- Es, Est in E1. inversion E1.
            * rewrite Est in Es. cbn in Es. inversion Es; subst. assert (F : follows key L (c1, Branch idiff b tw)).
              { apply Q; [intros e0 []|]. apply in_app_iff. right. cbn; auto. }
              unfold follows in F. cbn [snd] in F. specialize (F X). congruence.
        - destruct st' as [|e [|[j p] up]]; auto. destruct (U _ _ _ eq_refl) as (i & b & tw & Ep & Hi). cbn in Ep. subst p. exact Hi. }
      split; [|exact FD]. rewrite !keybit_nib by (apply K || apply KL).
      replace (find_asserts st' idiff) with true; [reflexivity|]. destruct FD as [_ _ _ _ _ F1 F2]. destruct st' as [|[c0 t0] up]; [destruct F1|]. cbn [find_asserts].
      symmetry. apply Bool.andb_true_iff. split.
      * destruct t0; [reflexivity|]. lia.
      * destruct up as [|[j p] up]; [reflexivity|]. destruct p; [destruct F2|]. lia.
  - rewrite E. cbn [rbind]. right. right. auto.
Qed.

(** the keys of the subtree found, compared with the key *)
Lemma found_agree : forall root key st idiff L, wf root -> found root key st idiff L ->
  match st with (_, t) :: _ => forall k, In k (keys t) -> agree idiff key k | [] => False end.
Proof.
  intros root key st idiff L W [C R A D I T _]. destruct (chain_cons _ _ C) as (ci & t & up & ->). intros k Hk. eapply agree_trans; [exact A|].
  destruct t as [k0 v|i b tw]; [cbn in *; destruct I as [->|[]]; destruct Hk as [->|[]]; apply agree_refl|].
  pose proof (chain_top_wf _ _ _ _ W C) as (_ & _ & _ & _ & AG & _). eapply agree_le; [apply T|]. apply AG; auto.
Qed.

(** everything left of the stack is smaller than the key, everything right of it is greater *)
Lemma chain_sides : forall root st key, wf root -> bytes key -> chain root st ->
  (match st with _ :: (_, Branch i _ _) :: _ => exists k0, agree (i + 1) key k0 /\ (forall e, In e st -> In k0 (keys (snd e))) | _ => True end) ->
  (forall k, In k (map fst (bef st)) -> klt k key) /\ (forall k, In k (map fst (aft st)) -> klt key k).
Proof.
  intros root st key W B C. induction C as [|j i b tw c ci up C IH G]; intros H.
  - cbn. split; intros k [].
  - destruct H as (k0 & A & I). pose proof (chain_top_wf _ _ _ _ W C) as Wp. pose proof Wp as (Hi & _ & _ & F & AG & _).
    destruct IH as [IH1 IH2].
    { destruct up as [|[j2 p2] up]; [exact Logic.I|]. destruct (chain_parent _ _ _ _ _ _ C) as (i2 & b2 & tw2 & -> & G2). pose proof (chain_index _ _ _ _ _ _ _ _ _ _ W C).
      exists k0. split; [eapply agree_le; [|exact A]; lia|]. intros e He. apply I. cbn. auto. }
    destruct (wf_digit _ _ _ _ _ Wp G) as (d & Gd & Rd & _ & Dd).
    assert (Ed : nib key i = d). { rewrite (A i) by lia. apply Dd. apply (I (ci, c)). cbn; auto. }
    assert (side : forall j' c' k, zget tw j' = Some c' -> In k (keys c') -> agree i key k /\ (j' < ci -> nib k i < d) /\ (ci < j' -> d < nib k i)).
    { intros j' c' k G' Hk. destruct (wf_digit _ _ _ _ _ Wp G') as (d' & Gd' & Rd' & _ & Dd'). rewrite (Dd' _ Hk). split.
      - eapply agree_trans; [eapply agree_le; [|exact A]; lia|]. apply AG; apply keys_branch.
        + exists c. split; [eapply zget_In; eauto|]. apply (I (ci, c)). cbn; auto.
        + exists c'. split; [eapply zget_In; eauto|auto].
      - pose proof (digits_sorted b) as S. pose proof (zget_some _ _ _ Gd) as Q1. pose proof (zget_some _ _ _ Gd') as Q2.
        assert (MONO : forall (l : list Z) x y u v, StronglySorted Z.lt l -> zget l x = Some u -> zget l y = Some v -> x < y -> u < v).
        { clear. induction l as [|z l IH]; intros x y u v S Gx Gy L; [apply zget_some in Gx; rewrite zlen_nil in Gx; lia|].
          pose proof (zget_some _ _ _ Gx). pose proof (zget_some _ _ _ Gy). inversion S; subst. rewrite (zget_cons z l y) in Gy by lia. destruct (Z.eq_dec x 0) as [->|].
          - rewrite zget_0 in Gx. inversion Gx; subst. rewrite Forall_forall in H4. apply H4. eapply zget_In; eauto.
          - rewrite zget_cons in Gx by lia. eapply IH; [auto|exact Gx|exact Gy|lia]. }
        split; intros; eapply MONO; eauto. }
    assert (bk : forall c' k, In c' tw -> In k (keys c') -> bytes k).
    { intros c' k Hc Hk. eapply wf_bytes; [exact Wp|]. apply keys_branch. eauto. }
    split; intros k Hk.
    + change (bef ((ci, c) :: (j, Branch i b tw) :: up)) with (bef ((j, Branch i b tw) :: up) ++ flat_map elems (zfirstn ci tw)) in Hk.
      rewrite map_app in Hk. apply in_app_iff in Hk. destruct Hk as [Hk|Hk]; [auto|].
      apply in_map_iff in Hk. destruct Hk as ([k' v] & <- & Hk). apply in_flat_map in Hk. destruct Hk as (c' & Ic & Hk). apply in_keys in Hk. cbn [fst].
      unfold zfirstn in Ic. apply In_nth_error in Ic. destruct Ic as [m Hm]. assert (Lm : (m < length (firstn (Z.to_nat ci) tw))%nat) by (apply nth_error_Some; congruence). rewrite firstn_length in Lm.
      assert (G' : zget tw (Z.of_nat m) = Some c').
      { unfold zget. replace (Z.of_nat m <? 0) with false by lia. rewrite Nat2Z.id. rewrite <- Hm. clear - Lm. revert m Lm. generalize (Z.to_nat ci). induction tw as [|x tw IH]; intros n m Lm; destruct n; cbn in *; try lia.
        destruct m; [reflexivity|]. apply IH. lia. }
      destruct (side _ _ _ G' Hk) as (A' & L1 & _). apply nlt_klt; [eapply bk; [eapply zget_In; exact G'|auto]|auto|]. exists i. split; [auto|]. split; [apply agree_sym; auto|]. pose proof (zget_some _ _ _ G). lia.
    + change (aft ((ci, c) :: (j, Branch i b tw) :: up)) with (flat_map elems (zskipn (ci + 1) tw) ++ aft ((j, Branch i b tw) :: up)) in Hk.
      rewrite map_app in Hk. apply in_app_iff in Hk. destruct Hk as [Hk|Hk]; [|auto].
      apply in_map_iff in Hk. destruct Hk as ([k' v] & <- & Hk). apply in_flat_map in Hk. destruct Hk as (c' & Ic & Hk). apply in_keys in Hk. cbn [fst].
      apply In_nth_error in Ic. destruct Ic as [m Hm]. pose proof (zget_some _ _ _ G) as Rg.
      assert (G' : zget tw (ci + 1 + Z.of_nat m) = Some c').
      { rewrite <- zget_zskipn by lia. unfold zget. replace (Z.of_nat m <? 0) with false by lia. rewrite Nat2Z.id. auto. }
      destruct (side _ _ _ G' Hk) as (A' & _ & L1). apply nlt_klt; [auto|eapply bk; [eapply zget_In; exact G'|auto]|]. exists i. split; [auto|]. split; [auto|]. lia.
Qed.
