(** Proofs about the copy-on-write trie: insertion is insertion into the new tree only. *)
From Verif Require Import Base TrieModel TrieSpec TrieProofs TrieProofs2 TrieProofs3 TrieProofs4 TrieCowModel TrieCowProofs TrieCowProofs2 TrieCowProofs3 TrieCowProofs4.
From Coq Require Import Permutation.

Lemma wr_get_eq : forall h h' fs w a, h_get h a = h_get h' a -> wr_get h fs w a = wr_get h' fs w a.
Proof. intros h h' [|f fs] w a E; cbn [wr_get]; [auto|]. rewrite E. auto. Qed.
Lemma h_get_new : forall h o n a, n = h_next h -> h_get (h_set (mkh (n + 1) (h_get h)) n (Some o)) a = if a =? n then Some o else h_get h a.
Proof. intros. reflexivity. Qed.
Lemma inv_none : forall h go gn a, inv h go gn -> h_next h <= a -> h_get h a = None.
Proof. intros h go gn a I L. destruct (h_get h a) eqn:E; [|auto]. assert (h_get h a <> None) as X by congruence. apply (i_rng _ _ _ I) in X. lia. Qed.

(** adding a twig on the heap *)
Lemma heap_add : forall al h go fs i b b' aa gl gr key n root m s,
  inv h go (Some (fill fs (GB false i b aa (gl ++ gr)))) -> n = h_next h -> root = mkc false (rootw fs (WBranch i b aa)) -> m = zlen (gl ++ gr) -> s = zlen gl ->
  forall h2, h2 = h_set (mkh (n + 1) (h_get h)) n (Some (OKey false key)) ->
  exists cs, h_arr h2 aa = Ok cs /\ (zlen cs <? m) = false /\
    match h_alloc al h2 (OArr (zfirstn s (zfirstn m cs) ++ mkc false (WLeaf n 0) :: zskipn s (zfirstn m cs))) with
    | None => al (n + 1) = false /\ exists h3, h_free h2 n = Ok h3 /\ inv h3 go (Some (fill fs (GB false i b aa (gl ++ gr))))
    | Some (h3, nt) => nt = n + 1 /\ exists h4 h5, h_free h3 aa = Ok h4 /\ wr h4 root (fptr fs) (mkc false (WBranch i b' nt)) = Ok (h5, mkc false (rootw fs (WBranch i b' nt))) /\
        inv h5 go (Some (fill fs (GB false i b' (n + 1) (gl ++ GL false n key 0 :: gr))))
    end.
Proof.
  intros al h go fs i b b' aa gl gr key n root m s I EN -> -> -> h2 E2. pose proof (inv_focus_facts _ _ _ _ I) as F. pose proof (f_g _ _ _ F) as HG. apply holds_B in HG. destruct HG as (HA & NE & HG).
  assert (RA : 0 < aa < n) by (rewrite EN; apply (f_rng _ _ _ F); left; cbn; auto).
  assert (G2 : forall a, a <> n -> h_get h2 a = h_get h a) by (intros a A; rewrite E2; cbn [h_set h_get]; replace (a =? n) with false by lia; auto).
  assert (X2 : h_next h2 = n + 1) by (rewrite E2; auto). assert (N2 : h_get h2 n = Some (OKey false key)) by (rewrite E2; cbn [h_set h_get]; rewrite Z.eqb_refl; auto).
  rewrite cells_false in HA. exists (map (mkc false) (map word_of (gl ++ gr))). split; [unfold h_arr; rewrite G2 by lia; rewrite HA; auto|]. split; [rewrite !zlen_map; lia|].
  replace (zlen (gl ++ gr)) with (zlen (map (mkc false) (map word_of (gl ++ gr)))) by (rewrite !zlen_map; auto). rewrite firstn_len. rewrite !map_app.
  rewrite zfirstn_app_exact by (rewrite !zlen_map; auto). rewrite zskipn_app_exact by (rewrite !zlen_map; auto). unfold h_alloc. rewrite X2.
  destruct (al (n + 1)) eqn:EA.
  - split; [auto|]. set (h3 := h_set (mkh (n + 1 + 1) (h_get h2)) (n + 1) (Some (OArr (map (mkc false) (map word_of gl) ++ mkc false (WLeaf n 0) :: map (mkc false) (map word_of gr))))).
    assert (G3 : forall a, a <> n + 1 -> h_get h3 a = h_get h2 a) by (intros a A; cbn [h3 h_set h_get]; replace (a =? n + 1) with false by lia; auto).
    assert (M3 : h_get h3 (n + 1) = Some (OArr (cells false (map word_of (gl ++ GL false n key 0 :: gr))))) by (cbn [h3 h_set h_get]; rewrite Z.eqb_refl, cells_false, !map_app; auto).
    unfold h_free. rewrite G3, G2, HA by lia. set (h4 := h_set h3 aa None).
    assert (G4 : forall a, a <> aa -> h_get h4 a = h_get h3 a) by (intros a A; cbn [h4 h_set h_get]; replace (a =? aa) with false by lia; auto).
    assert (A4 : h_get h4 aa = None) by (cbn [h4 h_set h_get]; rewrite Z.eqb_refl; auto).
    assert (GO : forall a, a <> aa -> a < n -> h_get h4 a = h_get h a) by (intros a A1 A2; rewrite G4, G3, G2 by lia; auto).
    assert (FH : fhold h4 fs (word_of (GB false i b aa (gl ++ gr)))). { eapply fhold_local; [exact F|]. intros a A1 A2. apply GO; [intros ->; apply A1; cbn; auto|lia]. }
    cbn [word_of] in FH. destruct (wr_focus h4 fs (WBranch i b aa) (WBranch i b' (n + 1)) FH) as (h5 & W5 & N5 & E5). exists h4, h5. split; [auto|]. split; [exact W5|].
    assert (NF : forall a, a = aa \/ n <= a -> ~ In a (fexcl fs)).
    { intros a [->|A] C; [apply (f_dis _ _ _ F aa); [cbn; auto|apply in_app_iff; auto]|]. assert (0 < a < h_next h) by (apply (f_rng _ _ _ F); right; apply in_app_iff; auto). lia. }
    eapply add_inv; [exact I|exact EN| | | | | |].
    + rewrite N5. change (h_next h4) with (n + 1 + 1). lia.
    + intros a A1 A2. rewrite E5. apply wr_get_eq. apply GO; auto.
    + rewrite E5, wr_get_same by auto. auto.
    + intros a A. rewrite E5, wr_get_same by (apply NF; lia). rewrite G4, G3, G2 by lia. eapply inv_none; [exact I|lia].
    + rewrite E5, wr_get_same by (apply NF; lia). rewrite G4, G3 by lia. auto.
    + rewrite E5, wr_get_same by (apply NF; lia). rewrite G4 by lia. auto.
  - split; [auto|]. unfold h_free. rewrite N2. eexists. split; [reflexivity|]. eapply inv_same; [exact I| |cbn [h_set h_next]; lia]. intros a. rewrite E2. apply leaf_undone; auto. eapply inv_none; [exact I|lia].
Qed.
(** a branch over the node on the heap *)
Lemma heap_two : forall al h go fs i b' g key n root tw, inv h go (Some (fill fs g)) -> n = h_next h -> root = mkc false (rootw fs (word_of g)) ->
  (tw = [g; GL false n key 0] \/ tw = [GL false n key 0; g]) ->
  forall h2, h2 = h_set (mkh (n + 1) (h_get h)) n (Some (OKey false key)) ->
    match h_alloc al h2 (OArr []) with
    | None => al (n + 1) = false /\ exists h3, h_free h2 n = Ok h3 /\ inv h3 go (Some (fill fs g))
    | Some (h3, nt) => nt = n + 1 /\ exists h4, wr h3 root (fptr fs) (mkc false (WBranch i b' nt)) = Ok (h4, mkc false (rootw fs (WBranch i b' nt))) /\
        inv (h_set h4 nt (Some (OArr (map (mkc false) (map word_of tw))))) go (Some (fill fs (GB false i b' (n + 1) tw)))
    end.
Proof.
  intros al h go fs i b' g key n root tw I EN -> TW h2 E2. pose proof (inv_focus_facts _ _ _ _ I) as F.
  assert (G2 : forall a, a <> n -> h_get h2 a = h_get h a) by (intros a A; rewrite E2; cbn [h_set h_get]; replace (a =? n) with false by lia; auto).
  assert (X2 : h_next h2 = n + 1) by (rewrite E2; auto). assert (N2 : h_get h2 n = Some (OKey false key)) by (rewrite E2; cbn [h_set h_get]; rewrite Z.eqb_refl; auto).
  unfold h_alloc. rewrite X2. destruct (al (n + 1)) eqn:EA.
  - split; [auto|]. set (h3 := h_set (mkh (n + 1 + 1) (h_get h2)) (n + 1) (Some (OArr []))).
    assert (G3 : forall a, a <> n + 1 -> h_get h3 a = h_get h2 a) by (intros a A; cbn [h3 h_set h_get]; replace (a =? n + 1) with false by lia; auto).
    assert (GO : forall a, a < n -> h_get h3 a = h_get h a) by (intros a A; rewrite G3, G2 by lia; auto).
    assert (FH : fhold h3 fs (word_of g)) by (eapply fhold_local; [exact F|]; intros a _ A; apply GO; lia).
    destruct (wr_focus h3 fs (word_of g) (WBranch i b' (n + 1)) FH) as (h4 & W4 & N4 & E4). exists h4. split; [exact W4|].
    assert (NF : forall a, n <= a -> ~ In a (fexcl fs)). { intros a A C. assert (0 < a < h_next h) by (apply (f_rng _ _ _ F); right; apply in_app_iff; auto). lia. }
    set (h5 := h_set h4 (n + 1) (Some (OArr (map (mkc false) (map word_of tw))))).
    assert (G5 : forall a, a <> n + 1 -> h_get h5 a = wr_get h3 fs (WBranch i b' (n + 1)) a) by (intros a A; cbn [h5 h_set h_get]; replace (a =? n + 1) with false by lia; auto).
    eapply two_inv; [exact I|exact EN| | | | | |exact TW].
    + change (h_next h5) with (h_next h4). rewrite N4. change (h_next h3) with (n + 1 + 1). lia.
    + intros a A. rewrite G5 by lia. apply wr_get_eq. apply GO. auto.
    + intros a A. rewrite G5, wr_get_same by (try apply NF; lia). rewrite G3, G2 by lia. eapply inv_none; [exact I|lia].
    + rewrite G5, wr_get_same by (try apply NF; lia). rewrite G3 by lia. auto.
    + cbn [h5 h_set h_get]. rewrite Z.eqb_refl, cells_false. auto.
  - split; [auto|]. unfold h_free. rewrite N2. eexists. split; [reflexivity|]. eapply inv_same; [exact I| |cbn [h_set h_next]; lia]. intros a. rewrite E2. apply leaf_undone; auto. eapply inv_none; [exact I|lia].
Qed.

Definition good (stk : Z -> bool) : alloc := mka stk true true true.
Definition failed (al stk : Z -> bool) : Prop := exists n, al n = false \/ stk n = false.
Lemma tree_some : forall t g, tree t (Some g) = mkt (erase g) (ht_weight t).
Proof. auto. Qed.

Lemma cow_ins_spec : forall al stk cw h t key go gn, inv h go gn -> trep t gn -> twf (tree t gn) -> (cw = false -> go = None) -> key_ok key ->
  exists h' t' r go' gn', cow_get_ins al stk cw h t key = Ok (h', t', r) /\ inv h' go' gn' /\ option_map ew go' = option_map ew go /\ (cw = false -> go' = None) /\ trep t' gn' /\
    match r with
    | None => tree t' gn' = tree t gn /\ failed al stk
    | Some p => exists fs ka v, gn' = Some (fill fs (GL false ka key v)) /\ p = fptr fs /\ trie_get_ins (good stk) (tree t gn) key = Ok (tree t' gn', Some (fpath fs))
    end.
Proof.
  intros al stk cw h t key go gn I T TW CW K. unfold cow_get_ins. destruct gn as [g|].
  - destruct T as [TR TN]. replace (ht_weight t =? 0) with false by lia. rewrite (hload_spec _ _ _ _ I (conj TR TN)). cbn [rbind tree] in *.
    destruct TW as [[H _]|[W H]]; [cbn in H; congruence|]. cbn [t_root t_weight] in *. pose proof (wf_weight_pos _ W) as WP. fold (good stk). unfold trie_get_ins. cbn [t_weight t_root]. replace (ht_weight t =? 0) with false by lia.
    assert (DOWN : forall st, chain (erase g) st -> exists ps, ptrs h (ht_root t) (ns_path st) = Ok ps /\ exists h' ps' ok go' gn',
       (if cw then cow_pushdown al h (ht_root t) ps None else Ok (h, ht_root t, ps, true)) = Ok (h', mkc false (word_of gn'), ps', ok) /\
       inv h' go' (Some gn') /\ option_map ew go' = option_map ew go /\ erase gn' = erase g /\ (cw = false -> go' = None) /\ (ok = false -> exists n, al n = false) /\
       (ok = true -> exists fs g', gn' = fill fs g' /\ gflag g' = false /\ ps' = chainp fs [] /\ st = fstack fs g')).
    { intros st C. destruct (ptrs_get h g st (i_hn _ _ _ I) C) as (ps & P1 & P2). rewrite TR. exists (PRoot :: ps). split; [exact P2|]. destruct (down_spec cw al h go g _ ps I CW W P1) as (h' & ps' & ok & go' & gn' & E1 & E2 & E3 & E4 & E5 & E6 & E7).
      exists h', ps', ok, go', gn'. split; [exact E1|]. split; [auto|]. split; [auto|]. split; [auto|]. split; [auto|]. split; [auto|]. intros X. destruct (E7 X) as (fs & g' & Q1 & Q2 & Q3 & Q4). exists fs, g'. split; [auto|]. split; [auto|]. split; [auto|]. apply chain_fill; [|auto]. rewrite <- Q1, E4. exact C. }
    destruct (find_branch_spec (good stk) (mkt (erase g) (ht_weight t)) key W ltac:(cbn [t_weight]; lia) K) as [(n & st & ci & v & -> & C & up & ST)|[(n & st & idiff & L & -> & F)|[-> (n & M)]]]; cbn [t_root] in *.
    + (* already there *)
      destruct (DOWN st C) as (ps & P1 & h' & ps' & ok & go' & gn' & P2 & I' & EO & EN & CW' & OF & OT). cbn [ns_st]. rewrite P1. cbn [rbind]. rewrite P2. cbn [rbind]. destruct ok; cbn [negb].
      * destruct (OT eq_refl) as (fs & g' & -> & FG & -> & EST). rewrite chainp_last. pose proof (inv_focus_facts _ _ _ _ I') as FF. rewrite word_fill. rewrite rd_focus by apply FF. cbn [rbind]. rewrite Z.eqb_refl. cbn [c_w].
        destruct (fstack_top fs g') as (ci' & up' & ET). rewrite <- EST, ST in ET. inversion ET; subst ci' up'. destruct (erase_leaf g' key v) as (ka & ->); [auto|auto|]. cbn [word_of].
        eexists h', _, _, go', _. split; [reflexivity|]. split; [exact I'|]. split; [auto|]. split; [auto|]. split; [split; [cbn [ht_root]; rewrite word_fill; auto|auto]|]. exists fs, ka, v. split; [auto|]. split; [auto|].
        rewrite ST. cbn [ns_top ns_st rbind]. rewrite <- ST, EST. cbn [tree ht_weight]. rewrite EN, ns_path_spath, spath_fstack. auto.
      * eexists h', _, None, go', (Some gn'). split; [reflexivity|]. split; [auto|]. split; [auto|]. split; [auto|]. split; [split; auto|]. split; [cbn [tree ht_weight]; rewrite EN; auto|]. destruct (OF eq_refl) as (x & X). exists x. auto.
    + pose proof F as [C R A D IL TT UU]. destruct (DOWN st C) as (ps & P1 & h' & ps' & ok & go' & gn' & P2 & I' & EO & EN & CW' & OF & OT). cbn [ns_st]. rewrite P1. cbn [rbind]. rewrite P2. cbn [rbind]. destruct ok; cbn [negb];
        [|eexists h', _, None, go', (Some gn'); split; [reflexivity|]; split; [auto|]; split; [auto|]; split; [auto|]; split; [split; auto|]; split; [cbn [tree ht_weight]; rewrite EN; auto|]; destruct (OF eq_refl) as (x & X); exists x; auto].
      destruct (OT eq_refl) as (fs & g' & -> & FG & -> & EST). rewrite chainp_last. pose proof (inv_focus_facts _ _ _ _ I') as FF. rewrite word_fill. rewrite rd_focus by apply FF. cbn [rbind]. replace (idiff =? TMAX_INDEX) with false by lia. rewrite h_mkleaf_spec by auto. cbn [ht_weight].
      destruct (al (h_next h')) eqn:EA; [|eexists h', _, None, go', _; split; [reflexivity|]; split; [exact I'|]; split; [auto|]; split; [auto|]; split; [split; [cbn [ht_root]; rewrite word_fill; auto|auto]|]; split; [cbn [tree ht_weight]; rewrite EN; auto|]; eexists; left; exact EA].
      cbn [rbind c_w]. set (m := h_next h') in *. set (h2 := h_set (mkh (m + 1) (h_get h')) m (Some (OKey false key))).
      destruct (fstack_top fs g') as (ci & up & ET). rewrite <- EST in ET. set (nd := erase g') in *.
      pose proof C as C0. rewrite ET in C0. pose proof (chain_top_wf _ _ _ _ W C0) as Wn. rewrite ET in F. pose proof (found_agree _ _ _ _ _ W F) as FA. cbv beta iota in FA. rewrite ET in IL, TT, UU.
      pose proof (nib_range key idiff (proj1 K)) as Rk. assert (KL : key_ok L) by (eapply wf_keys_ok; [exact Wn|exact IL]). pose proof (nib_range L idiff (proj1 KL)) as RL.
      rewrite ET. cbn [ns_top ns_st rbind]. rewrite mkleaf_spec by auto. cbn [good a_key].
      assert (OOM : forall h3, inv h3 go' (Some (fill fs g')) -> al (m + 1) = false -> exists t2 gn2, Ok (h3, mkht (mkc false (rootw fs (word_of g'))) (ht_weight t), @None ptr) = Ok (h3, t2, None) /\ inv h3 go' gn2 /\ option_map ew go' = option_map ew go /\ (cw = false -> go' = None) /\ trep t2 gn2 /\ tree t2 gn2 = mkt (erase g) (ht_weight t) /\ failed al stk).
      { intros h3 I3 E3. eexists _, _. split; [reflexivity|]. split; [exact I3|]. split; [auto|]. split; [auto|]. split; [split; [cbn [ht_root]; rewrite word_fill; auto|auto]|]. split; [cbn [tree ht_weight]; rewrite EN; auto|]. eexists; left; exact E3. }
      assert (EB : (match word_of g' with WBranch i b aa => if i =? idiff then Some (b, aa) else None | WLeaf _ _ => None end) = match g' with GB _ i b aa tw => if i =? idiff then Some (b, aa) else None | GL _ _ _ _ => None end) by (destruct g'; auto).
      rewrite EB. destruct (match nd with Branch i _ _ => i =? idiff | Leaf _ _ => false end) eqn:EBR.
      * (* a new twig *)
        destruct g' as [|s i b aa tw]; [discriminate|]. cbn [gflag] in FG. subst s. cbn [nd erase] in EBR, Wn, TT, FA, IL. assert (i = idiff) by lia. subst i. rewrite Z.eqb_refl. destruct TT as [_ TT]. specialize (TT eq_refl).
        cbn [nd erase]. rewrite !wf_hastwig by auto. cbn [rbind]. rewrite TT. pose proof Wn as (_ & Kb & _). rewrite !wf_twigoff by auto. cbn [rbind]. rewrite (wf_weight idiff b (map erase tw)) by exact Wn. cbn [rbind twigs branch_bmp good a_twigs negb].
        destruct (wf_add idiff b (map erase tw) key 0 Wn K TT FA) as (l1 & l2 & Etw & Ll & Wa & _). destruct (map_app_inv _ _ _ _ Etw) as (gl & gr & -> & E1 & E2). rewrite <- Ll, <- E1, zlen_map.
        rewrite (wf_gweight false idiff b aa (gl ++ gr)) by exact Wn. cbn [rbind].
        destruct (heap_add al h' go' fs idiff b (Z.lor b (bitof (nib key idiff))) aa gl gr key m (mkc false (rootw fs (WBranch idiff b aa))) (zlen (gl ++ gr)) (zlen gl) I' eq_refl eq_refl eq_refl eq_refl h2 eq_refl) as (cs & -> & LC & HA). cbn [rbind]. rewrite LC.
        assert (MB : forall x, mkbranch idiff (Z.lor b (bitof (nib key idiff))) x = Ok (Branch idiff (Z.lor b (bitof (nib key idiff))) x)) by (intros x; apply mkbranch_ok; [lia|apply okbmp_lor; auto]).
        destruct (h_alloc al h2 _) as [[h3 nt]|].
        -- destruct HA as (-> & h4 & h5 & -> & W5 & I5). cbn [rbind]. rewrite !MB. cbn [rbind word_of]. rewrite W5. cbn [rbind].
           eexists h5, _, _, go', (Some (fill (mkf idiff (Z.lor b (bitof (nib key idiff))) (m + 1) gl gr :: fs) (GL false m key 0))). split; [reflexivity|]. split; [exact I5|]. split; [auto|]. split; [auto|]. split; [split; [cbn [ht_root]; rewrite word_fill; auto|cbn [ht_weight]; lia]|].
           exists (mkf idiff (Z.lor b (bitof (nib key idiff))) (m + 1) gl gr :: fs), m, 0. split; [auto|]. split; [auto|]. rewrite map_app. rewrite zfirstn_app_exact by (rewrite zlen_map; auto). rewrite zskipn_app_exact by (rewrite zlen_map; auto).
           pose proof (plug_fill fs (GB false idiff b aa (gl ++ gr)) (GB false idiff (Z.lor b (bitof (nib key idiff))) (m + 1) (gl ++ GL false m key 0 :: gr))) as PF. rewrite <- EST, ET in PF. cbn [nd erase] in PF. rewrite !map_app in PF. cbn [map erase] in PF. rewrite PF. cbn [rbind tree ht_weight].
           rewrite fpath_cons. cbn [f_l]. f_equal. f_equal. f_equal. f_equal. rewrite ns_path_spath. rewrite <- (spath_fstack fs (GB false idiff b aa (gl ++ gr))), <- EST, ET. cbn [nd erase]. rewrite map_app. auto.
        -- destruct HA as (EA2 & h3 & -> & I3). cbn [rbind]. destruct (OOM h3 I3 EA2) as (t2 & gn2 & Q1 & Q2 & Q3 & Q4 & Q5 & Q6 & Q7). exists h3, t2, None, go', gn2. split; [exact Q1|]. auto 10.
      * (* a new branch *)
        replace (match g' with GB _ i b aa tw => if i =? idiff then Some (b, aa) else None | GL _ _ _ _ => None end) with (@None (Z * Z)) by (destruct g'; cbn [nd erase] in EBR; [auto|rewrite EBR; auto]).
        assert (HT : (match (ci, nd) :: up with _ :: (_, pt) :: _ => let* b := twigbit pt key in hastwig pt b | _ => Ok true end) = Ok true).
        { destruct up as [|[j p] up]; [reflexivity|]. destruct (chain_parent _ _ _ _ _ _ C0) as (i & b & tw & -> & G). unfold twigbit. cbn [branch_index rbind].
          pose proof (chain_top_wf _ _ _ _ W (chain_pop _ _ _ _ C0)) as Wp. destruct (wf_digit _ _ _ _ _ Wp G) as (d & _ & Rd & Ed & Dd).
          rewrite keybit_nib by apply K. rewrite wf_hastwig by (apply nib_range; apply K). rewrite (A i), (Dd _ IL), Ed; [reflexivity|]. pose proof Wp as (Hi & _). lia. }
        rewrite HT. cbn [rbind negb good a_twigs].
        set (bm := Z.lor (bitof (nib L idiff)) (bitof (nib key idiff))). assert (Kb : okbmp bm) by (apply okbmp_lor; auto; apply okbmp_bitof; auto).
        pose proof (digits_two (nib L idiff) (nib key idiff) RL Rk ltac:(congruence)) as DT. fold bm in DT.
        assert (MB : forall x, mkbranch idiff bm x = Ok (Branch idiff bm x)) by (intros x; apply mkbranch_ok; [lia|auto]).
        rewrite !MB. cbn [rbind]. rewrite !wf_twigoff by auto. unfold low. rewrite DT.
        assert (TWG : forall i', (i' = 0 \/ i' = 1) -> twig (Branch idiff bm [Leaf [] 0; Leaf [] 0]) i' = Ok (Leaf [] 0)).
        { intros i' Hi'. unfold twig, branch_weight. rewrite popcount_digits by auto. rewrite DT. replace (zlen (if nib L idiff <? nib key idiff then [nib L idiff; nib key idiff] else [nib key idiff; nib L idiff])) with 2 by (destruct (nib L idiff <? nib key idiff); reflexivity).
          cbn [rbind Z.ltb Z.leb Z.compare andb TWIDTH_BMP Pos.compare Pos.compare_cont]. destruct Hi' as [-> | ->]; reflexivity. }
        assert (PTH : forall x, spath ((ci, nd) :: up) ++ [x] = fpath fs ++ [x]) by (intros x; rewrite <- ET, EST, spath_fstack; auto).
        destruct (nib L idiff <? nib key idiff) eqn:LT.
        -- assert (X1 : filter (fun x => x <? nib L idiff) [nib L idiff; nib key idiff] = []) by (apply filter_none; intros x [<-|[<-|[]]]; lia).
           assert (X2 : filter (fun x => x <? nib key idiff) [nib L idiff; nib key idiff] = [nib L idiff]). { cbn [filter]. rewrite LT. replace (nib key idiff <? nib key idiff) with false by lia. reflexivity. }
           rewrite X1, X2. cbn [rbind]. change (zlen (@nil Z)) with 0. change (zlen [nib L idiff]) with 1.
           pose proof (heap_two al h' go' fs idiff bm g' key m (mkc false (rootw fs (word_of g'))) [g'; GL false m key 0] I' eq_refl eq_refl (or_introl eq_refl) h2 eq_refl) as HA. destruct (h_alloc al h2 (OArr [])) as [[h3 nt]|].
           ++ destruct HA as (-> & h4 & W4 & I4). rewrite W4. cbn [rbind].
              eexists _, _, _, go', (Some (fill (mkf idiff bm (m + 1) [g'] [] :: fs) (GL false m key 0))). split; [reflexivity|]. split; [exact I4|]. split; [auto|]. split; [auto|]. split; [split; [cbn [ht_root]; rewrite word_fill; auto|cbn [ht_weight]; lia]|].
              exists (mkf idiff bm (m + 1) [g'] [] :: fs), m, 0. split; [auto|]. split; [auto|]. rewrite !TWG by auto. cbn [rbind]. change (zset (zset [Leaf [] 0; Leaf [] 0] 0 nd) 1 (Leaf key 0)) with [nd; Leaf key 0]. rewrite MB. cbn [rbind].
              pose proof (plug_fill fs g' (GB false idiff bm (m + 1) [g'; GL false m key 0])) as PF. rewrite <- EST, ET in PF. cbn [erase map] in PF. fold nd in PF. rewrite PF. cbn [rbind tree ht_weight]. rewrite fpath_cons, ns_path_spath, PTH. auto.
           ++ destruct HA as (EA2 & h3 & -> & I3). cbn [rbind]. destruct (OOM h3 I3 EA2) as (t2 & gn2 & Q1 & Q2 & Q3 & Q4 & Q5 & Q6 & Q7). exists h3, t2, None, go', gn2. split; [exact Q1|]. auto 10.
        -- assert (X1 : filter (fun x => x <? nib L idiff) [nib key idiff; nib L idiff] = [nib key idiff]). { cbn [filter]. replace (nib key idiff <? nib L idiff) with true by lia. replace (nib L idiff <? nib L idiff) with false by lia. reflexivity. }
           assert (X2 : filter (fun x => x <? nib key idiff) [nib key idiff; nib L idiff] = []) by (apply filter_none; intros x [<-|[<-|[]]]; lia).
           rewrite X1, X2. cbn [rbind]. change (zlen (@nil Z)) with 0. change (zlen [nib key idiff]) with 1.
           pose proof (heap_two al h' go' fs idiff bm g' key m (mkc false (rootw fs (word_of g'))) [GL false m key 0; g'] I' eq_refl eq_refl (or_intror eq_refl) h2 eq_refl) as HA. destruct (h_alloc al h2 (OArr [])) as [[h3 nt]|].
           ++ destruct HA as (-> & h4 & W4 & I4). rewrite W4. cbn [rbind].
              eexists _, _, _, go', (Some (fill (mkf idiff bm (m + 1) [] [g'] :: fs) (GL false m key 0))). split; [reflexivity|]. split; [exact I4|]. split; [auto|]. split; [auto|]. split; [split; [cbn [ht_root]; rewrite word_fill; auto|cbn [ht_weight]; lia]|].
              exists (mkf idiff bm (m + 1) [] [g'] :: fs), m, 0. split; [auto|]. split; [auto|]. rewrite !TWG by auto. cbn [rbind]. change (zset (zset [Leaf [] 0; Leaf [] 0] 1 nd) 0 (Leaf key 0)) with [Leaf key 0; nd]. rewrite MB. cbn [rbind].
              pose proof (plug_fill fs g' (GB false idiff bm (m + 1) [GL false m key 0; g'])) as PF. rewrite <- EST, ET in PF. cbn [erase map] in PF. fold nd in PF. rewrite PF. cbn [rbind tree ht_weight]. rewrite fpath_cons, ns_path_spath, PTH. auto.
           ++ destruct HA as (EA2 & h3 & -> & I3). cbn [rbind]. destruct (OOM h3 I3 EA2) as (t2 & gn2 & Q1 & Q2 & Q3 & Q4 & Q5 & Q6 & Q7). exists h3, t2, None, go', gn2. split; [exact Q1|]. auto 10.
    + eexists h, t, None, go, (Some g). split; [reflexivity|]. split; [auto|]. split; [auto|]. split; [auto|]. split; [split; auto|]. split; [auto|]. exists n. auto.
  - cbn [trep] in T. rewrite T. cbn [Z.eqb]. rewrite h_mkleaf_spec by auto. destruct (al (h_next h)) eqn:EA.
    + set (n := h_next h) in *. eexists _, _, _, go, (Some (GL false n key 0)). split; [reflexivity|]. split; [|split; [auto|]; split; [auto|]; split; [split; [auto|cbn; lia]|]].
      * eapply inv_update; [exact I| | | | | | | |cbn; lia]; cbn [oexcl ogok oholds oshr excl shr gok holds].
        -- intros a _ L. cbn [h_set h_get]. fold n in L. replace (a =? n) with false by lia. auto.
        -- exact Logic.I.
        -- cbn [h_set h_get]. rewrite Z.eqb_refl. auto.
        -- constructor.
        -- constructor; [intros []|constructor].
        -- intros a [<-|[]]. right. fold n. lia.
        -- intros a L [[]|A]. fold n in A. cbn [h_set h_get h_next] in *. destruct (a =? n) eqn:E; [split; [left; lia|lia]|]. exfalso. apply L. eapply inv_none; [exact I|exact A].
      * exists [], n, 0. split; [auto|]. split; [auto|]. unfold trie_get_ins. cbn [tree t_weight Z.eqb]. rewrite mkleaf_spec by auto. cbn. auto.
    + eexists h, t, None, go, None. split; [reflexivity|]. split; [auto|]. split; [auto|]. split; [auto|]. split; [auto|]. split; [auto|]. exists (h_next h). auto.
Qed.
