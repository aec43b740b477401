(** Proofs about the copy-on-write trie: deletion, start, commit and rollback of a transaction. *)
From Verif Require Import Base TrieModel TrieSpec TrieProofs TrieProofs2 TrieProofs3 TrieProofs4 TrieCowModel TrieCowProofs TrieCowProofs2 TrieCowProofs3 TrieCowProofs4 TrieCowProofs5 TrieCowProofs6.
From Coq Require Import Permutation.

Lemma found_absent : forall root key st idiff L, wf root -> key_ok key -> found root key st idiff L -> ~ In key (keys root).
Proof.
  intros root key st idiff L W K F IN. destruct (found_sides _ _ _ _ _ W K F) as [SB SA]. pose proof (found_nib _ _ _ _ _ W F) as FN. pose proof F as [C R A D IL T U]. destruct (chain_cons _ _ C) as (ci & t & up & ->). cbv beta iota in FN.
  unfold keys in IN. rewrite (chain_elems _ _ _ _ C), !map_app, !in_app_iff in IN. destruct IN as [IN|[IN|IN]]; [apply SB in IN; apply klt_irrefl in IN; auto| |apply SA in IN; apply klt_irrefl in IN; auto].
  change (map fst (elems t)) with (keys t) in IN. destruct t as [k v|i b tw].
  - apply D. apply FN; auto.
  - destruct T as [T1 T2]. assert (i = idiff \/ i <> idiff) as [E|E] by lia; [|apply D; apply FN; auto]. specialize (T2 E). pose proof (chain_top_wf _ _ _ _ W C) as Wt. apply keys_branch in IN. destruct IN as (c & Ic & IN). apply In_nth_error in Ic. destruct Ic as [n Hn].
    assert (G' : zget tw (Z.of_nat n) = Some c) by (unfold zget; replace (Z.of_nat n <? 0) with false by lia; rewrite Nat2Z.id; auto).
    destruct (wf_digit _ _ _ _ _ Wt G') as (d & _ & _ & Ed & Rd). specialize (Rd _ IN). congruence.
Qed.

(** *** deletion *)
Lemma h_del_spec : forall al h t key gn, inv h None gn -> trep t gn -> twf (tree t gn) -> bytes key ->
  (exists h' t' v gn', h_del al h t key = Ok (h', t', v) /\ inv h' None gn' /\ trep t' gn' /\ trie_del (tree t gn) key = Ok (tree t' gn', v)) \/
  (h_del al h t key = Err KNOT_ENOENT /\ trie_del (tree t gn) key = Err KNOT_ENOENT).
Proof.
  intros al h t key [g|] I T TW B; [|cbn [trep] in T; right; unfold h_del, trie_del; rewrite T; auto].
  unfold h_del, trie_del. pose proof T as [TR TN]. replace (ht_weight t =? 0) with false by lia. rewrite (hload_spec _ _ _ _ I T). cbn [rbind tree t_weight t_root] in *. replace (ht_weight t =? 0) with false by lia.
  destruct TW as [[H _]|[W H]]; [cbn in H; congruence|]. cbn [t_root t_weight] in *.
  destruct (del_loop_spec (height (erase g)) (erase g) 0 (erase g) [] 0 key W B (chain_root _) (le_n _) Logic.I) as (r & -> & S). cbn [rbind]. destruct r as [[st b]|]; [|right; auto].
  destruct S as (cj & k & v & up & ST & C & Q & Hb). subst st. cbn [tkey rbind]. destruct (key_cmp key k =? 0) eqn:E; cbn [negb]; [|right; auto]. left.
  destruct (ptrs_get h g _ (i_hn _ _ _ I) C) as (ps & P1 & P2). rewrite TR, P2. cbn [rbind].
  assert (SH : shr g = []). { pose proof (i_perm _ _ _ I) as P. cbn [oshr] in P. apply Permutation_nil in P. auto. }
  destruct (place_spec _ g [] ps SH P1) as (fs & g' & EF & FG & FP & EP). cbn [fill fptr] in EF, EP. rewrite app_nil_r in EF. rewrite EP, top2_chainp. cbn [rbind].
  rewrite EF in C. apply chain_fill in C; [|auto]. destruct (fstack_top fs g') as (ci' & up' & ET). rewrite <- C in ET. inversion ET; subst ci' up'. destruct (erase_leaf g' k v) as (ka & ->); [auto|auto|].
  rewrite EF in I, T, W, H. destruct (heap_del al h t None fs ka k v b I T W H) as (h' & t' & gn' & D1 & D2 & D3 & D4). exists h', t', v, gn'. split; [exact D1|]. split; [auto|]. split; [auto|]. rewrite C, EF. exact D4.
Qed.

Lemma cow_del_spec : forall al stk h c key go gn, inv h go gn -> trep (cw_new c) gn -> twf (tree (cw_new c) gn) -> key_ok key ->
  exists h' t' r go' gn', trie_del_cow al stk h c key = Ok (h', mkcow (cw_old c) t', r) /\ inv h' go' gn' /\ option_map ew go' = option_map ew go /\ trep t' gn' /\
    match r with
    | inl v => twf (tree t' gn') /\ exists l1 l2, content (tree (cw_new c) gn) = l1 ++ (key, v) :: l2 /\ content (tree t' gn') = l1 ++ l2
    | inr e => tree t' gn' = tree (cw_new c) gn /\ ((e = KNOT_ENOENT /\ forall v, ~ In (key, v) (content (tree (cw_new c) gn))) \/ (e = KNOT_ENOMEM /\ failed al stk))
    end.
Proof.
  intros al stk h c key go gn I T TW K. unfold trie_del_cow. cbv zeta. destruct c as [old t]. cbn [cw_old cw_new] in *. destruct gn as [g|].
  - pose proof T as [TR TN]. replace (ht_weight t =? 0) with false by lia. rewrite (hload_spec _ _ _ _ I T). cbn [rbind tree] in *. destruct TW as [[H _]|[W H]]; [cbn in H; congruence|]. cbn [t_root t_weight] in *. pose proof (wf_weight_pos _ W) as WP. fold (good stk).
    destruct (find_branch_spec (good stk) (mkt (erase g) (ht_weight t)) key W ltac:(cbn [t_weight]; lia) K) as [(n & st & ci & v & -> & C & up & ST)|[(n & st & idiff & L & -> & F)|[-> (n & M)]]]; cbn [t_root] in *.
    + rewrite Z.eqb_refl. cbn [negb ns_st]. destruct (ptrs_get h g st (i_hn _ _ _ I) C) as (ps & P1 & P2). rewrite TR, P2. cbn [rbind].
      destruct (down_spec true al h go g _ ps I ltac:(discriminate) W P1) as (h' & ps' & ok & go' & gn' & E1 & I' & E3 & E4 & _ & E6 & E7). cbv iota in E1. rewrite E1. cbn [rbind]. destruct ok; cbn [negb].
      * destruct (E7 eq_refl) as (fs & g' & -> & FG & FP & ->). rewrite top2_chainp. cbn [rbind].
        pose proof C as C'. rewrite <- E4 in C'. apply chain_fill in C'; [|auto]. destruct (fstack_top fs g') as (ci' & up' & ET). rewrite <- C', ST in ET. inversion ET; subst ci' up'. destruct (erase_leaf g' key v) as (ka & ->); [auto|auto|].
        rewrite <- E4 in W, H, C. rewrite ST in C.
        set (t1 := mkht (mkc false (word_of (fill fs (GL false ka key v)))) (ht_weight t)).
        assert (BIT : exists b, (match (match fs with [] => None | _ :: fs => Some (fptr fs) end) with
            | None => Ok 0
            | Some pp => let* p := rd h' (mkc false (word_of (fill fs (GL false ka key v)))) pp in match c_w p with WBranch i _ _ => Ok (keybit i key) | WLeaf _ _ => UB end end) = Ok b /\
          (match up with (_, Branch i _ _) :: _ => b = bitof (nib key i) | _ => True end)).
        { destruct fs as [|f fs]; [exists 0; split; [auto|]; cbn [fstack] in C'; rewrite ST in C'; inversion C'; auto|]. cbn [fill] in I' |- *. pose proof (inv_focus_facts _ _ _ _ I') as FF. rewrite word_fill. rewrite rd_focus by apply FF. cbn [rbind c_w word_of].
          exists (keybit (f_i f) key). split; [auto|]. cbn [fstack] in C'. destruct (fstack_top fs (GB false (f_i f) (f_b f) (f_a f) (f_l f ++ GL false ka key v :: f_r f))) as (cj & upp & EU). rewrite EU, ST in C'. inversion C'. cbn [erase]. apply keybit_nib. apply K. }
        destruct BIT as (b & -> & HB). cbn [rbind].
        destruct (heap_del al h' t1 go' fs ka key v b I' (conj eq_refl TN) W H) as (h2 & t2 & gn2 & D1 & D2 & D3 & D4). fold t1. rewrite D1. cbn [rbind]. exists h2, t2, (inl v), go', gn2. split; [auto|]. split; [auto|]. split; [auto|]. split; [auto|].
        destruct (del_found_spec (mkt (erase (fill fs (GL false ka key v))) (ht_weight t)) ci key v up b W H C HB) as (t'' & l1 & l2 & Q1 & Q2 & Q3 & Q4). cbn [tree t1 ht_weight] in D4. rewrite <- C', ST, Q1 in D4. inversion D4; subst t''. split; [auto|]. exists l1, l2. rewrite <- E4. auto.
      * eexists h', _, _, go', (Some gn'). split; [reflexivity|]. split; [auto|]. split; [auto|]. split; [split; auto|]. split; [cbn [tree ht_weight]; rewrite E4; auto|]. right. split; [auto|]. destruct (E6 eq_refl) as (x & X). exists x. auto.
    + pose proof (fd_range _ _ _ _ _ F). replace (idiff =? TMAX_INDEX) with false by lia. cbn [negb]. exists h, t, (inr KNOT_ENOENT), go, (Some g). split; [auto|]. split; [auto|]. split; [auto|]. split; [auto|]. split; [auto|]. left. split; [auto|]. intros v IN. rewrite content_wf in IN by auto. cbn [t_root] in IN.
      apply in_keys in IN. eapply found_absent; eauto.
    + exists h, t, (inr KNOT_ENOMEM), go, (Some g). split; [auto|]. split; [auto|]. split; [auto|]. split; [auto|]. split; [auto|]. right. split; [auto|]. exists n. auto.
  - cbn [trep] in T. rewrite T. cbn [Z.eqb]. exists h, t, (inr KNOT_ENOENT), go, None. split; [auto|]. split; [auto|]. split; [auto|]. split; [auto|]. split; [auto|]. left. split; [auto|]. intros v. cbn. auto.
Qed.

(** *** the start of a transaction *)
Lemma shr_nil_clean : forall g, shr g = [] -> clean g.
Proof.
  induction g as [s ka k v|s i b aa tw IH] using gnode_ind2; intros H; [destruct s; [discriminate|reflexivity]|]. cbn [shr] in H. destruct s; [discriminate|]. apply clean_B. split; [auto|]. rewrite Forall_forall in *. intros c C. apply IH; [auto|].
  apply in_split in C. destruct C as (l1 & l2 & ->). rewrite fm_app in H. cbn [flat_map] in H. apply app_eq_nil in H. destruct H as [_ H]. apply app_eq_nil in H. tauto.
Qed.
Lemma trie_cow_spec : forall ok h t gn, inv h None gn -> trep t gn ->
  exists h' c, trie_cow ok h t = Ok (h', c) /\
    match c with
    | None => ok = false /\ h' = h
    | Some c => ok = true /\ c = mkcow t t /\ exists gn', inv h' gn' gn' /\ trep t gn' /\ option_map erase gn' = option_map erase gn
    end.
Proof.
  intros [] h t gn I T; [|exists h, None; auto]. unfold trie_cow. cbn [negb]. destruct gn as [g|].
  - pose proof T as [TR TN]. replace (ht_weight t =? 0) with false by lia. cbn [negb]. rewrite TR. cbn [c_w].
    pose proof (inv_focus_facts h None [] g I) as F. destruct (mark_cow_spec h g (f_g _ _ _ F) (f_nd _ _ _ F)) as (h' & -> & N & HM & E). cbn [rbind]. exists h', (Some (mkcow t t)). split; [auto|]. split; [auto|]. split; [auto|]. exists (Some (setf true g)).
    assert (SH : shr g = []). { pose proof (i_perm _ _ _ I) as P. cbn [oshr] in P. apply Permutation_nil in P. auto. } pose proof (shr_nil_clean _ SH) as CL. destruct (setf_facts [g] ltac:(constructor; auto)) as (S1 & S2 & S3). cbn [map flat_map] in S1, S2, S3. rewrite app_nil_r in S2. rewrite !app_nil_r in S3.
    assert (LV : forall a, h_get h a <> None <-> In a (alla g)). { intros a. rewrite (inv_live h None (Some g) a I). cbn [oexcl]. unfold oshra. cbn [oshr app]. rewrite in_app_iff, alla_in. tauto. }
    assert (LV' : forall a, h_get h' a <> None -> In a (alla g)). { intros a A. destruct (Z.eq_dec a (topa g)) as [->|X]; [apply topa_alla|]. rewrite E in A by auto. apply LV. auto. }
    split; [|split; [split; [rewrite word_setf; auto|auto]|cbn [option_map]; rewrite erase_setf; auto]].
    constructor; cbn [ogok oholds oexcl oshr]; unfold oshra; cbn [oshr]; auto.
    + inversion S1; auto.
    + inversion S1; auto.
    + rewrite S2. cbn [app]. rewrite S3. apply F.
    + intros a A. rewrite S2. cbn [app]. rewrite S3. auto.
    + intros a A. rewrite N. apply (i_rng _ _ _ I). apply LV. auto.
    + rewrite N. apply (i_next _ _ _ I).
  - cbn [trep] in T. rewrite T. cbn [Z.eqb negb rbind]. exists h, (Some (mkcow t t)). split; [auto|]. split; [auto|]. split; [auto|]. exists None. auto.
Qed.

(** *** commit and rollback *)
Definition itop (it : item) : Z := match it with SKey ka _ => ka | SArr aa _ => aa end.
Definition iobj (it : item) : obj := match it with SKey _ k => OKey false k | SArr _ tw => OArr (cells false (map word_of tw)) end.
Lemma itop_addr : forall it, In (itop it) (iaddr it).
Proof. destruct it; cbn; auto. Qed.
Definition stop (gs : list gnode) : list Z := map itop (flat_map shr gs).
Definition cleaned (h h' : heap) (gs : list gnode) : Prop :=
  h_next h' = h_next h /\ (forall a, In a (flat_map excl gs) -> h_get h' a = None) /\
  (forall it, In it (flat_map shr gs) -> h_get h' (itop it) = Some (iobj it)) /\
  (forall a, ~ In a (flat_map excl gs) -> ~ In a (stop gs) -> h_get h' a = h_get h a).
Lemma stop_alla : forall gs a, In a (stop gs) -> In a (flat_map alla gs).
Proof.
  intros gs a H. unfold stop in H. apply in_map_iff in H. destruct H as (it & <- & H). apply in_flat_map in H. destruct H as (g & G & H). apply in_flat_map. exists g. split; [auto|]. apply alla_in. right. unfold shra. apply in_flat_map. exists it. split; [auto|apply itop_addr].
Qed.
Lemma fexcl_alla : forall gs a, In a (flat_map excl gs) -> In a (flat_map alla gs).
Proof. intros gs a H. apply in_flat_map in H. destruct H as (g & G & H). apply in_flat_map. exists g. split; [auto|apply alla_in; auto]. Qed.
Lemma cleaned_out : forall h h' gs a, cleaned h h' gs -> ~ In a (flat_map alla gs) -> h_get h' a = h_get h a.
Proof. intros h h' gs a (_ & _ & _ & H) N. apply H; intros C; apply N; [apply fexcl_alla|apply stop_alla]; auto. Qed.
Lemma cleaned_cons : forall h h1 h2 c r, cleaned h h1 [c] -> cleaned h1 h2 r -> (forall a, In a (alla c) -> In a (flat_map alla r) -> False) -> cleaned h h2 (c :: r).
Proof.
  intros h h1 h2 c r C1 C2 D. pose proof (fun a => cleaned_out _ _ _ a C2) as O2. destruct C1 as (A1 & A2 & A3 & A4). destruct C2 as (B1 & B2 & B3 & B4). cbn [flat_map] in A2, A3, A4. rewrite app_nil_r in *.
  unfold stop in A4. cbn [flat_map] in A4. rewrite app_nil_r in A4.
  assert (IT : forall it, In it (shr c) -> In (itop it) (alla c)) by (intros it H; apply alla_in; right; unfold shra; apply in_flat_map; exists it; split; [auto|apply itop_addr]).
  split; [congruence|]. split; [|split].
  - intros a H. cbn [flat_map] in H. apply in_app_iff in H. destruct H as [H|H]; [|auto]. rewrite O2; [auto|]. intros X. eapply D; [|exact X]. apply alla_in. auto.
  - intros it H. cbn [flat_map] in H. apply in_app_iff in H. destruct H as [H|H]; [|auto]. rewrite O2; [auto|]. intros X. eapply D; [|exact X]. auto.
  - intros a N1 N2. unfold stop in N2. cbn [flat_map] in N1, N2. rewrite map_app, in_app_iff in N2. rewrite in_app_iff in N1. rewrite B4 by (unfold stop; tauto). apply A4; tauto.
Qed.
Definition kids (cl : heap -> word -> res heap) (w : word) (aa : Z) : heap -> Z -> nat -> res heap :=
  fix go (h : heap) (ci : Z) (n : nat) : res heap :=
  match n with
  | O => Ok h
  | S n => let* c := rd h (mkc false w) (PCell aa ci) in let* h := cl h (c_w c) in go h (ci + 1) n
  end.
Lemma cleanup_unfold : forall fuel h w, cow_cleanup (S fuel) h w =
  let* m := cow_marked h w in
  if m then clear_cow h w else
  match w with
  | WBranch i b aa => let* cc := branch_weight (Branch i b []) in let* h := kids (cow_cleanup fuel) w aa h 0 (Z.to_nat cc) in h_free h aa
  | WLeaf ka v => let* (kc, k) := h_key h ka in if (kc : bool) then Ok (h_set h ka (Some (OKey false k))) else h_free h ka
  end.
Proof. intros fuel h [ka v|i b aa]; reflexivity. Qed.
Lemma kids_spec : forall cl w aa r l h, h_get h aa = Some (OArr (cells false (map word_of (l ++ r)))) -> ~ In aa (flat_map alla r) -> NoDup (flat_map alla r) -> Forall (holds h) r ->
  Forall (fun c => forall h, holds h c -> NoDup (alla c) -> exists h', cl h (word_of c) = Ok h' /\ cleaned h h' [c]) r ->
  exists h', kids cl w aa h (zlen l) (length r) = Ok h' /\ cleaned h h' r.
Proof.
  induction r as [|c r IH]; intros l h A NI ND F CL.
  - exists h. split; [auto|]. split; [auto|]. split; [intros a []|]. split; [intros it []|auto].
  - cbn [length kids]; fold (kids cl w aa). unfold rd, h_arr. rewrite A. cbn [rbind]. rewrite map_app. cbn [map]. destruct (zget_cells false (map word_of l) (word_of c) (map word_of r)) as (f & G). rewrite zlen_map in G. rewrite G. cbn [rbind c_w].
    apply Forall_cons_iff in F. destruct F as [Fc Fr]. apply Forall_cons_iff in CL. destruct CL as [Cc Cr]. cbn [flat_map] in ND, NI. apply nd_app in ND. destruct ND as (N1 & N2 & N3). rewrite in_app_iff in NI.
    destruct (Cc h Fc N1) as (h1 & -> & C1). cbn [rbind].
    assert (O1 : forall a, ~ In a (alla c) -> h_get h1 a = h_get h a) by (intros a X; eapply cleaned_out; [exact C1|]; cbn [flat_map]; rewrite app_nil_r; auto).
    destruct (IH (l ++ [c]) h1) as (h' & E & C2).
    + rewrite O1 by tauto. rewrite <- app_assoc. exact A.
    + tauto.
    + auto.
    + rewrite Forall_forall in *. intros x X. eapply holds_ext; [|apply Fr; auto]. intros a Y. apply O1. intros Q. eapply N3; [exact Q|]. apply in_flat_map. eauto.
    + auto.
    + replace (zlen l + 1) with (zlen (l ++ [c])) by (rewrite zlen_app; reflexivity). exists h'. split; [exact E|]. eapply cleaned_cons; eauto.
Qed.
Lemma cleanup_spec : forall g fuel h, (gh g <= fuel)%nat -> wf (erase g) -> gok g -> holds h g -> NoDup (alla g) -> exists h', cow_cleanup fuel h (word_of g) = Ok h' /\ cleaned h h' [g].
Proof.
  induction g as [s ka k v|s i b aa tw IH] using gnode_ind2; intros fuel h L W G H ND; (destruct fuel as [|fuel]; [cbn in L; lia|]); rewrite cleanup_unfold, cow_marked_spec by auto; cbn [rbind].
  - cbn [word_of]. unfold h_key, h_free. cbn [holds] in H. rewrite H. cbn [rbind]. destruct s; eexists; (split; [reflexivity|]); (split; [auto|]); cbn [flat_map excl shr app]; (split; [|split]).
    + intros a [].
    + intros it [<-|[]]. cbn. rewrite Z.eqb_refl. auto.
    + intros a _ N. cbn in *. replace (a =? ka) with false by lia. auto.
    + intros a [<-|[]]. cbn. rewrite Z.eqb_refl. auto.
    + intros it [].
    + intros a N _. cbn in *. replace (a =? ka) with false by lia. auto.
  - destruct s.
    + destruct (set_mark_spec h true i b aa tw false H ND) as (h' & E & (X1 & X2 & X3)). exists h'. split; [exact E|]. split; [auto|]. cbn [flat_map excl shr app]. split; [intros a []|]. split.
      * intros it [<-|[]]. cbn [itop iobj]. cbn [setf] in X2. apply holds_B in X2. apply X2.
      * intros a _ N. apply X3. cbn in *. lia.
    + cbn [word_of]. rewrite (wf_gweight _ _ _ _ _ W). cbn [rbind]. pose proof H as H0. apply holds_B in H0. destruct H0 as (HA & NE & HC). pose proof ND as ND0. cbn [alla] in ND0. apply NoDup_cons_iff in ND0. destruct ND0 as [ND1 ND2]. apply gok_B in G.
      destruct (kids_spec (cow_cleanup fuel) (WBranch i b aa) aa tw [] h HA ND1 ND2 HC) as (h1 & E1 & C1).
      { rewrite Forall_forall in *. intros c C h0 X1 X2. apply IH; auto. 2:{ cbn [erase] in W. eapply wf_child; [exact W|]. apply in_map. auto. }
        cbn [gh] in L. assert (Q : (gh c <= fold_right (fun c n => Nat.max (gh c) n) 0 tw)%nat); [|lia]. clear - C. induction tw as [|d tw IH]; [destruct C|]. cbn [fold_right]. destruct C as [->|C]; [lia|]. apply IH in C. lia. }
      change (zlen (@nil gnode)) with 0 in E1. unfold zlen. rewrite Nat2Z.id, E1. cbn [rbind]. pose proof (cleaned_out _ _ _ aa C1 ND1) as EA. unfold h_free. rewrite EA, HA. eexists. split; [reflexivity|]. destruct C1 as (A1 & A2 & A3 & A4).
      split; [auto|]. cbn [flat_map excl shr]. rewrite !app_nil_r. split; [|split].
      * intros a [<-|X]; cbn [h_set h_get]; [rewrite Z.eqb_refl; auto|]. destruct (a =? aa); auto.
      * intros it X. cbn [h_set h_get]. replace (itop it =? aa) with false; [auto|]. symmetry. apply Z.eqb_neq. intros Q. apply ND1. rewrite <- Q. apply stop_alla. unfold stop. apply in_map. auto.
      * intros a N1 N2. cbn [h_set h_get]. cbn [In] in N1. replace (a =? aa) with false by lia. unfold stop in N2. cbn [flat_map shr] in N2. rewrite app_nil_r in N2. apply A4; auto.
Qed.

Fixpoint unsh (g : gnode) : gnode := match g with GL _ ka k v => GL false ka k v | GB _ i b aa tw => GB false i b aa (map unsh tw) end.
Lemma word_unsh : forall g, word_of (unsh g) = word_of g.
Proof. destruct g; auto. Qed.
Lemma erase_unsh : forall g, erase (unsh g) = erase g.
Proof. induction g as [s ka k v|s i b aa tw IH] using gnode_ind2; [auto|]. cbn [unsh erase]. f_equal. rewrite map_map. apply map_ext_in. rewrite Forall_forall in IH. auto. Qed.
Lemma alla_unsh : forall g, alla (unsh g) = alla g.
Proof. induction g as [s ka k v|s i b aa tw IH] using gnode_ind2; [auto|]. cbn [unsh alla]. f_equal. induction tw as [|c tw IHt]; [auto|]. inversion IH; subst. cbn. f_equal; auto. Qed.
Lemma clean_unsh : forall g, clean (unsh g).
Proof. induction g as [s ka k v|s i b aa tw IH] using gnode_ind2; [reflexivity|]. cbn [unsh]. apply clean_B. split; [auto|]. rewrite Forall_forall in *. intros c C. apply in_map_iff in C. destruct C as (d & <- & C). auto. Qed.
Lemma unsh_clean : forall g, clean g -> unsh g = g.
Proof.
  induction g as [s ka k v|s i b aa tw IH] using gnode_ind2; intros C; [cbn in *; congruence|]. apply clean_B in C. destruct C as [-> C]. cbn [unsh]. f_equal. rewrite Forall_forall in *. clear - IH C. induction tw as [|c tw IHt]; [auto|]. cbn [map]. f_equal; [apply IH; [cbn; auto|apply C; cbn; auto]|].
  apply IHt; intros; [apply IH|apply C]; cbn; auto.
Qed.
Lemma clean_all : forall g, clean g -> excl g = alla g /\ shr g = [].
Proof.
  induction g as [s ka k v|s i b aa tw IH] using gnode_ind2; intros C; [cbn in C; subst; auto|]. apply clean_B in C. destruct C as [-> C]. cbn [excl alla shr]. rewrite Forall_forall in *. clear - IH C. induction tw as [|c tw IHt]; [auto|]. cbn [flat_map].
  destruct (IH c) as [E1 E2]; [cbn; auto|apply C; cbn; auto|]. destruct IHt as [E3 E4]; [intros; apply IH; cbn; auto|intros; apply C; cbn; auto|]. rewrite E1, E2, E4. inversion E3 as [E5]. rewrite E5. auto.
Qed.
Lemma holds_unsh : forall g h h', gok g -> holds h g -> (forall a, In a (excl g) -> h_get h' a = h_get h a) -> (forall it, In it (shr g) -> h_get h' (itop it) = Some (iobj it)) ->
  (forall it a, In it (shr g) -> In a (iaddr it) -> a <> itop it -> h_get h' a = h_get h a) -> NoDup (shra g) -> holds h' (unsh g).
Proof.
  induction g as [s ka k v|s i b aa tw IH] using gnode_ind2; intros h h' G H E1 E2 E3 N.
  - cbn [unsh holds] in *. destruct s; cbn [shr excl] in *; [specialize (E2 (SKey ka k)); cbn in E2; auto|]. rewrite E1 by (cbn; auto). auto.
  - apply gok_B in G. apply holds_B in H. destruct H as (HA & NE & HC). cbn [unsh]. apply holds_B. split; [|split; [destruct tw; [auto|discriminate]|]].
    + rewrite map_map. rewrite (map_ext _ _ word_unsh). destruct s; [apply (E2 (SArr aa tw)); cbn; auto|]. rewrite E1 by (cbn; auto). auto.
    + rewrite Forall_forall in *. intros c C. apply in_map_iff in C. destruct C as (d & <- & C). destruct s.
      * rewrite unsh_clean by (apply G; auto). eapply holds_ext; [|apply HC; auto]. intros a A. assert (X : In a (flat_map alla tw)) by (apply in_flat_map; eauto). apply (E3 (SArr aa tw)); [cbn; auto|cbn; auto|]. cbn [itop].
        unfold shra in N. cbn in N. rewrite app_nil_r in N. apply NoDup_cons_iff in N. intros ->. tauto.
      * apply (IH d C h h'); [apply G; auto|apply HC; auto| | | |].
        -- intros a A. apply E1. cbn [excl]. right. apply in_flat_map. eauto.
        -- intros it A. apply E2. cbn [shr]. apply in_flat_map. eauto.
        -- intros it a A. apply E3. cbn [shr]. apply in_flat_map. eauto.
        -- unfold shra in *. cbn [shr] in N. apply in_split in C. destruct C as (l1 & l2 & ->). rewrite fm_app in N. cbn [flat_map] in N. rewrite !fm_app in N. apply nd_app in N. destruct N as (_ & N & _). apply nd_app in N. tauto.
Qed.
Definition ounsh (o : option gnode) : option gnode := option_map unsh o.
Lemma nodup_shared : forall (l : list item) it it' a, NoDup (flat_map iaddr l) -> In it l -> In it' l -> In a (iaddr it) -> In a (iaddr it') -> it = it'.
Proof.
  induction l as [|x l IH]; intros it it' a N I1 I2 A1 A2; [destruct I1|]. cbn [flat_map] in N. apply nd_app in N. destruct N as (_ & N2 & N3). destruct I1 as [->|I1], I2 as [->|I2]; [auto| | |eauto]; exfalso; eapply N3; [exact A1| |exact A2|]; apply in_flat_map; eauto.
Qed.
Lemma cleanup_inv : forall h g1 g2, inv h (Some g1) g2 -> wf (erase g1) -> exists h', cow_cleanup (depth h) h (word_of g1) = Ok h' /\ inv h' None (ounsh g2).
Proof.
  intros h g1 g2 I W. pose proof (inv_sym _ _ _ I) as I'. pose proof (inv_focus_facts h g2 [] g1 I') as F. pose proof (inv_bound _ _ _ I') as BD.
  destruct (cleanup_spec g1 (depth h) h ltac:(unfold depth; lia) W (f_gok _ _ _ F) (f_g _ _ _ F) (f_nd _ _ _ F)) as (h' & E & C). exists h'. split; [exact E|].
  pose proof (fun a => inv_live h _ _ a I) as LV. pose proof (inv_shra _ _ _ I) as PS. destruct C as (C1 & C2 & C3 & C4). cbn [flat_map] in C2, C3, C4. unfold stop in C4. cbn [flat_map] in C4. rewrite !app_nil_r in *. destruct I as [_ G _ H P N D R X]. cbn [oexcl oshr] in *.
  pose proof N as N0. apply nd_app in N0. destruct N0 as (N1 & N2 & N3). apply nd_app in N2. destruct N2 as (N2 & N4 & N5).
  assert (TOP : forall a, In a (map itop (shr g1)) -> In a (oshra g2)). { intros a A. apply in_map_iff in A. destruct A as (it & <- & A). unfold oshra. apply in_flat_map. exists it. split; [eapply Permutation_in; [exact P|exact A]|apply itop_addr]. }
  assert (LV' : forall a, h_get h' a <> None -> ~ In a (excl g1) /\ h_get h a <> None).
  { intros a A. split; [intros B; apply A; auto|]. destruct (in_dec Z.eq_dec a (map itop (shr g1))) as [B|B]; [apply LV; rewrite !in_app_iff; right; right; auto|]. rewrite C4 in A; auto. }
  destruct g2 as [g2|]; cbn [ounsh option_map].
  - destruct (clean_all _ (clean_unsh g2)) as [CE CS]. cbn [oexcl oshr ogok oholds] in *. unfold oshra in *. cbn [oshr] in *. rewrite alla_unsh in CE.
    constructor; cbn [oexcl oshr ogok oholds]; unfold oshra; cbn [oshr app]; rewrite ?CS, ?CE; cbn [flat_map]; rewrite ?app_nil_r; auto.
    + apply clean_gok, clean_unsh.
    + eapply holds_unsh; [exact G|exact H| | | |exact N4].
      * intros a A. apply C4; [intros B; apply (N3 a); [auto|apply in_app_iff; auto]|]. intros B. apply (N5 a); auto.
      * intros it A. apply C3. eapply Permutation_in; [symmetry; exact P|exact A].
      * intros it a A1 A2 A3. apply C4; [intros B; apply (N3 a); [auto|apply in_app_iff; right; apply in_flat_map; eauto]|]. intros B. apply in_map_iff in B. destruct B as (it' & B1 & B2). apply A3. rewrite <- B1. f_equal. eapply (nodup_shared (shr g2)); [exact N4|eapply Permutation_in; [exact P|exact B2]|exact A1| |exact A2]. rewrite <- B1. apply itop_addr.
    + eapply nd_perm; [symmetry; apply alla_split|]. apply nd_app. auto.
    + intros a A. destruct (LV' a A) as [B1 B2]. apply LV in B2. apply alla_in. rewrite !in_app_iff in B2. tauto.
    + intros a A. rewrite C1. apply R. apply LV'. auto.
    + rewrite C1. auto.
  - cbn [oexcl oshr ogok oholds] in *. unfold oshra in *. cbn [oshr flat_map app] in *. constructor; cbn [oexcl oshr ogok oholds]; unfold oshra; cbn [oshr flat_map app]; auto; try (constructor; fail).
    + intros a A. destruct (LV' a A) as [B1 B2]. apply LV in B2. rewrite app_nil_r in B2. tauto.
    + intros a A. rewrite C1. apply R. apply LV'. auto.
    + rewrite C1. auto.
Qed.
Lemma trep_unsh : forall t gn, trep t gn -> trep t (ounsh gn).
Proof. intros t [g|] T; cbn [ounsh option_map trep] in *; [rewrite word_unsh|]; auto. Qed.
Lemma tree_unsh : forall t gn, tree t (ounsh gn) = tree t gn.
Proof. intros t [g|]; cbn [ounsh option_map tree]; [rewrite erase_unsh|]; auto. Qed.
Lemma wf_tree : forall t g, trep t (Some g) -> twf (tree t (Some g)) -> wf (erase g).
Proof. intros t g [_ T] [[H _]|[W _]]; [cbn in H; congruence|auto]. Qed.
Lemma none_clean : forall h gn, inv h None gn -> inv h None (ounsh gn).
Proof.
  intros h [g|] I; [|auto]. cbn [ounsh option_map]. rewrite unsh_clean; [auto|]. apply shr_nil_clean. pose proof (i_perm _ _ _ I) as P. cbn [oshr] in P. apply Permutation_nil in P. auto.
Qed.
Lemma commit_spec : forall h c go gn, inv h go gn -> trep (cw_old c) go -> trep (cw_new c) gn -> twf (tree (cw_old c) go) ->
  exists h', trie_cow_commit h c = Ok (h', cw_new c) /\ inv h' None (ounsh gn).
Proof.
  intros h c [g|] gn I T1 T2 W; unfold trie_cow_commit.
  - pose proof T1 as [TR TN]. replace (ht_weight (cw_old c) =? 0) with false by lia. cbn [negb]. rewrite TR. cbn [c_w]. destruct (cleanup_inv h g gn I (wf_tree _ _ T1 W)) as (h' & -> & I'). exists h'. auto.
  - cbn [trep] in T1. rewrite T1. cbn [Z.eqb negb rbind]. exists h. split; [auto|]. apply none_clean. auto.
Qed.
Lemma rollback_spec : forall h c go gn, inv h go gn -> trep (cw_old c) go -> trep (cw_new c) gn -> twf (tree (cw_new c) gn) ->
  exists h', trie_cow_rollback h c = Ok (h', cw_old c) /\ inv h' None (ounsh go).
Proof.
  intros h c go [g|] I T1 T2 W; apply inv_sym in I; unfold trie_cow_rollback.
  - pose proof T2 as [TR TN]. replace (ht_weight (cw_new c) =? 0) with false by lia. cbn [negb]. rewrite TR. cbn [c_w]. destruct (cleanup_inv h g go I (wf_tree _ _ T2 W)) as (h' & -> & I'). exists h'. auto.
  - cbn [trep] in T2. rewrite T2. cbn [Z.eqb negb rbind]. exists h. split; [auto|]. apply none_clean. auto.
Qed.
