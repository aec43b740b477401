(** Proofs about the copy-on-write trie: deletion is deletion from the new tree only. *)
From Verif Require Import Base TrieModel TrieSpec TrieProofs TrieProofs2 TrieProofs3 TrieProofs4 TrieCowModel TrieCowProofs TrieCowProofs2 TrieCowProofs3 TrieCowProofs4 TrieCowProofs5.
From Coq Require Import Permutation.

Lemma wf_fill : forall fs g, wf (erase (fill fs g)) -> wf (erase g).
Proof.
  induction fs as [|f fs IH]; intros g W; [auto|]. cbn [fill] in W. apply IH in W. cbn [erase] in W. eapply wf_child; [exact W|]. apply in_map. apply in_app_iff. right. cbn. auto.
Qed.
Lemma excl_in : forall l g, In g l -> forall a, In a (excl g) -> In a (flat_map excl l).
Proof. intros. apply in_flat_map. eauto. Qed.
Lemma nd_excl : forall g, NoDup (alla g) -> NoDup (excl g).
Proof. intros g N. eapply nd_perm in N; [|apply alla_split]. apply nd_app in N. tauto. Qed.
Lemma alla_child : forall s i b aa tw c a, In c tw -> In a (alla c) -> In a (alla (GB s i b aa tw)).
Proof. intros. cbn [alla]. right. apply in_flat_map. eauto. Qed.

(** the parent without the leaf: [o] is the only other child *)
Lemma del2_inv : forall h h3 go fs i b aa ka k v tw o, inv h go (Some (fill fs (GB false i b aa tw))) -> (tw = [GL false ka k v; o] \/ tw = [o; GL false ka k v]) ->
  h_next h3 = h_next h -> (forall a, a <> aa -> a <> ka -> h_get h3 a = wr_get h fs (word_of o) a) -> h_get h3 aa = None -> h_get h3 ka = None ->
  inv h3 go (Some (fill fs o)).
Proof.
  intros h h3 go fs i b aa ka k v tw o I TW NX U HA HK. pose proof (inv_focus_facts _ _ _ _ I) as F.
  assert (IO : In o tw) by (destruct TW as [-> | ->]; cbn; auto).
  assert (EX : forall a, In a (excl (GB false i b aa tw)) <-> a = aa \/ a = ka \/ In a (excl o)).
  { intros a. destruct TW as [-> | ->]; cbn [excl flat_map app In]; rewrite ?app_nil_r, ?in_app_iff; cbn [In]; intuition auto. }
  assert (NK : forall a, In a (alla o) -> a <> aa /\ a <> ka).
  { intros a A. pose proof (f_nd _ _ _ F) as N. cbn [alla] in N. apply NoDup_cons_iff in N. destruct N as [N1 N2]. split; [intros ->; apply N1; apply in_flat_map; eauto|]. intros ->. clear N1.
    destruct TW as [-> | ->]; cbn [flat_map alla app] in N2; rewrite ?app_nil_r in N2; [apply NoDup_cons_iff in N2; tauto|]. apply nd_app in N2. apply (proj2 (proj2 N2) ka); cbn; auto. }
  eapply inv_focus; [exact I| | | | | | | |lia].
  - intros a A L. rewrite EX in A. apply U; tauto.
  - pose proof (f_gok _ _ _ F) as G. apply gok_B in G. rewrite Forall_forall in G. apply (G o); auto.
  - pose proof (f_g _ _ _ F) as G. apply holds_B in G. destruct G as (_ & _ & G). rewrite Forall_forall in G. eapply holds_ext; [|apply G; exact IO]. intros a A. destruct (NK a A). rewrite U by auto. apply wr_get_same.
    intros C. eapply (f_dis _ _ _ F); [eapply alla_child; eauto|apply in_app_iff; auto].
  - destruct TW as [-> | ->]; cbn [shr flat_map app]; rewrite ?app_nil_r; reflexivity.
  - apply nd_excl. pose proof (f_nd _ _ _ F) as N. cbn [alla] in N. apply NoDup_cons_iff in N. destruct N as [_ N]. destruct TW as [-> | ->]; cbn [flat_map] in N; rewrite ?app_nil_r in N; apply nd_app in N; tauto.
  - intros a A. left. apply EX. auto.
  - intros a L [A|A].
    + apply EX in A. destruct A as [->|[->|A]]; [congruence|congruence|]. split; [auto|]. assert (0 < a < h_next h) by (apply (f_rng _ _ _ F); left; eapply alla_child; [exact IO|apply alla_in; auto]). lia.
    + exfalso. apply L. assert (X : forall x, In x (aa :: ka :: fexcl fs) -> x < h_next h).
      { intros x Hx. assert (0 < x < h_next h); [|lia]. apply (f_rng _ _ _ F). destruct Hx as [<-|[<-|Hx]]; [left; cbn; auto|left|right; apply in_app_iff; auto]. eapply (alla_child _ _ _ _ _ (GL false ka k v)); [destruct TW as [-> | ->]; cbn; auto|cbn; auto]. }
      rewrite U; [|intros ->; specialize (X aa); cbn in X; lia|intros ->; specialize (X ka); cbn in X; lia]. rewrite wr_get_same; [eapply inv_none; eauto|]. intros C. specialize (X a). cbn in X. assert (a < h_next h) by auto. lia.
Qed.
(** the parent with two or more other children; the array is at x *)
Lemma del3_inv : forall h h3 go fs i b b' aa ka k v l r x, inv h go (Some (fill fs (GB false i b aa (l ++ GL false ka k v :: r)))) -> l ++ r <> [] ->
  (x = aa /\ h_next h3 = h_next h) \/ (x = h_next h /\ h_next h3 = h_next h + 1 /\ h_get h3 aa = None) ->
  (forall a, a <> aa -> a <> ka -> a <> x -> h_get h3 a = wr_get h fs (WBranch i b' x) a) -> h_get h3 ka = None ->
  h_get h3 x = Some (OArr (cells false (map word_of (l ++ r)))) ->
  inv h3 go (Some (fill fs (GB false i b' x (l ++ r)))).
Proof.
  intros h h3 go fs i b b' aa ka k v l r x I NE XX U HK HX. pose proof (inv_focus_facts _ _ _ _ I) as F. set (tw := l ++ GL false ka k v :: r) in *.
  assert (PA : Permutation (flat_map alla tw) (ka :: flat_map alla (l ++ r))) by (unfold tw; rewrite !fm_app; cbn [flat_map alla app]; symmetry; apply Permutation_middle).
  assert (PX : Permutation (flat_map excl tw) (ka :: flat_map excl (l ++ r))) by (unfold tw; rewrite !fm_app; cbn [flat_map excl app]; symmetry; apply Permutation_middle).
  pose proof (f_nd _ _ _ F) as N. cbn [alla] in N. apply NoDup_cons_iff in N. destruct N as [N1 N2]. eapply nd_perm in N2; [|exact PA]. apply NoDup_cons_iff in N2. destruct N2 as [N2 N3].
  assert (IN : forall c, In c (l ++ r) -> In c tw) by (intros c; unfold tw; rewrite !in_app_iff; cbn [In]; tauto).
  assert (RG : forall a, a = aa \/ a = ka \/ In a (flat_map alla (l ++ r)) -> 0 < a < h_next h /\ ~ In a (fexcl fs)).
  { intros a A. assert (In a (alla (GB false i b aa tw))) as X. { cbn [alla]. destruct A as [->|A]; [left; auto|right]. eapply Permutation_in; [symmetry; exact PA|]. cbn [In]. destruct A as [->|A]; auto. }
    split; [apply (f_rng _ _ _ F); auto|]. intros C. eapply (f_dis _ _ _ F); [exact X|apply in_app_iff; auto]. }
  assert (EA : forall a, In a (flat_map alla (l ++ r)) -> a <> aa /\ a <> ka /\ a <> x).
  { intros a A. assert (a <> aa) by (intros ->; apply N1; eapply Permutation_in; [symmetry; exact PA|cbn; auto]). assert (a <> ka) by (intros ->; auto). split; [auto|]. split; [auto|]. destruct (RG a) as [R _]; [auto|]. destruct XX as [[-> _]|(-> & _)]; [auto|lia]. }
  assert (XA : forall a, In a (flat_map excl (l ++ r)) -> In a (flat_map alla (l ++ r))) by (intros a A; apply in_flat_map in A; destruct A as (c & C1 & C2); apply in_flat_map; exists c; split; [auto|apply alla_in; auto]).
  eapply inv_focus; [exact I| | | | | | | |destruct XX as [[_ X]|(_ & X & _)]; lia].
  - intros a A L. cbn [word_of]. apply U; [intros ->; apply A; cbn; auto| |destruct XX as [[-> _]|(-> & _)]; [intros ->; apply A; cbn; auto|lia]]. intros ->. apply A. cbn [excl]. right. eapply Permutation_in; [symmetry; exact PX|cbn; auto].
  - pose proof (f_gok _ _ _ F) as G. apply gok_B in G. apply gok_B. rewrite Forall_forall in *. auto.
  - pose proof (f_g _ _ _ F) as G. apply holds_B in G. destruct G as (_ & _ & G). apply holds_B. split; [auto|]. split; [auto|]. rewrite Forall_forall in *. intros c C. eapply holds_ext; [|apply G; auto]. intros a A.
    assert (AL : In a (flat_map alla (l ++ r))) by (apply in_flat_map; eauto). destruct (EA a AL) as (A1 & A2 & A3). rewrite U by auto. apply wr_get_same. apply RG. auto.
  - unfold tw. cbn [shr]. rewrite !fm_app. cbn [flat_map shr app]. reflexivity.
  - cbn [excl]. constructor; [intros C; apply XA in C; apply EA in C; tauto|]. pose proof (nd_excl _ (f_nd _ _ _ F)) as Q. cbn [excl] in Q. apply NoDup_cons_iff in Q. destruct Q as [_ Q]. eapply nd_perm in Q; [|exact PX]. apply NoDup_cons_iff in Q. tauto.
  - cbn [excl]. intros a [<-|A]; [destruct XX as [[-> _]|(-> & _)]; [left; cbn; auto|right; lia]|]. left. right. eapply Permutation_in; [symmetry; exact PX|cbn; auto].
  - cbn [excl]. intros a L A. assert (AC : a = aa \/ a = ka \/ In a (flat_map excl (l ++ r)) \/ h_next h <= a).
    { destruct A as [A|A]; [|auto]. cbn [excl] in A. destruct A as [A|A]; [auto|]. eapply Permutation_in in A; [|exact PX]. cbn in A. tauto || (destruct A as [A|A]; auto). }
    destruct AC as [->|[->|[AC|AC]]].
    + destruct XX as [[-> E]|(-> & E & HN)]; [|congruence]. split; [cbn; auto|]. destruct (RG aa) as [R _]; [auto|]. lia.
    + congruence.
    + split; [cbn; auto|]. destruct (RG a) as [R _]; [auto|]. destruct XX as [[_ E]|(_ & E & _)]; lia.
    + assert (X : a = x \/ a <> x) by lia. destruct X as [->|X].
      * split; [cbn; auto|]. destruct (RG aa) as [R1 _]; [auto|]. destruct XX as [[X1 E]|(X1 & E & _)]; lia.
      * exfalso. apply L. destruct (RG aa) as [R1 _]; [auto|]. destruct (RG ka) as [R2 _]; [auto|]. rewrite U by lia. rewrite wr_get_same; [eapply inv_none; eauto|]. intros C. assert (0 < a < h_next h) by (apply (f_rng _ _ _ F); right; apply in_app_iff; auto). lia.
Qed.

Lemma heap_del : forall al h t go fs ka k v b, inv h go (Some (fill fs (GL false ka k v))) -> trep t (Some (fill fs (GL false ka k v))) ->
  wf (erase (fill fs (GL false ka k v))) -> ht_weight t = zlen (elems (erase (fill fs (GL false ka k v)))) ->
  exists h' t' gn', h_del_found al h t (fptr fs) (match fs with [] => None | _ :: fs => Some (fptr fs) end) b = Ok (h', t', v) /\ inv h' go gn' /\ trep t' gn' /\
    del_found (tree t (Some (fill fs (GL false ka k v)))) (fstack fs (GL false ka k v)) b = Ok (tree t' gn', v).
Proof.
  intros al h t go fs ka k v b I [TR TN] W TW. pose proof (inv_focus_facts _ _ _ _ I) as F. unfold h_del_found. rewrite TR, word_fill. rewrite rd_focus by apply F. cbn [rbind c_w word_of]. unfold h_key, h_free at 1. rewrite (f_g _ _ _ F). cbn [rbind].
  set (h1 := h_set h ka None). assert (G1 : forall a, a <> ka -> h_get h1 a = h_get h a) by (intros a A; cbn [h1 h_set h_get]; replace (a =? ka) with false by lia; auto). assert (K1 : h_get h1 ka = None) by (cbn [h1 h_set h_get]; rewrite Z.eqb_refl; auto).
  destruct fs as [|f fs].
  - cbn [fill erase elems] in TW. change (zlen [(k, v)]) with 1 in TW. rewrite TW. cbn [Z.eqb Z.sub Z.add Z.opp Z.pos_sub]. eexists h1, _, None. split; [reflexivity|]. split; [|split; [reflexivity|]].
    + eapply inv_update; [exact I| | | | | | | |cbn; lia]; cbn [oexcl ogok oholds oshr excl shr fill]; auto.
      * intros a A L. apply G1. intros ->. apply A. cbn. auto.
      * constructor.
      * intros a [].
      * intros a L [[<-|[]]|A]; [congruence|]. exfalso. apply L. assert (R : 0 < ka < h_next h) by (apply (f_rng _ _ _ F); left; cbn; auto). rewrite G1 by lia. eapply inv_none; eauto.
    + cbn [fstack fill erase tree del_found t_weight]. rewrite TW. reflexivity.
  - destruct f as [i bm aa l r]. cbn [fill f_i f_b f_a f_l f_r fptr] in *. set (P := GB false i bm aa (l ++ GL false ka k v :: r)) in *. pose proof (inv_focus_facts _ _ _ _ I) as FP.
    cbn [rootw f_i f_b f_a]. change (WBranch i bm aa) with (word_of P).
    assert (AK : In ka (alla P)) by (eapply (alla_child _ _ _ _ _ (GL false ka k v)); [apply in_app_iff; right; cbn; auto|cbn; auto]).
    assert (AAL : In aa (alla P)) by (cbn; auto).
    assert (NAK : aa <> ka). { pose proof (f_nd _ _ _ FP) as N. cbn [P alla] in N. apply NoDup_cons_iff in N. destruct N as [N _]. intros ->. apply N. apply in_flat_map. exists (GL false ka k v). split; [apply in_app_iff; right; cbn; auto|cbn; auto]. }
    assert (RG : forall a, In a (alla P) -> 0 < a < h_next h /\ ~ In a (fexcl fs)) by (intros a A; split; [apply (f_rng _ _ _ FP); auto|intros C; eapply (f_dis _ _ _ FP); [exact A|apply in_app_iff; auto]]).
    assert (FH1 : fhold h1 fs (word_of P)) by (eapply fhold_local; [exact FP|]; intros a A _; apply G1; intros ->; auto). rewrite rd_focus by auto. cbn [rbind c_w c_cow]. cbn [P word_of]. rewrite Z.eqb_refl. cbn [rbind].
    pose proof (wf_fill _ _ W) as WP. rewrite (wf_gweight _ _ _ _ _ WP). cbn [rbind]. set (tw := l ++ GL false ka k v :: r) in *.
    pose proof (zlen_nonneg l) as Zl. pose proof (zlen_nonneg r) as Zr. assert (LT : zlen tw = zlen l + zlen r + 1) by (unfold tw; rewrite zlen_app, zlen_cons; lia). replace ((0 <=? zlen l) && (zlen l <? zlen tw)) with true by lia. cbn [negb].
    pose proof (f_g _ _ _ FP) as HG. apply holds_B in HG. destruct HG as (HA & _ & _). rewrite cells_false in HA. unfold h_arr at 1. rewrite G1, HA by auto. cbn [rbind].
    cbn [tree]. cbn [fstack f_l f_i f_b f_a f_r erase del_found]. destruct (fstack_top fs P) as (pj & up & ES). pose proof (plug_fill fs P) as PF. change (fstack fs (GB false i bm aa (l ++ GL false ka k v :: r))) with (fstack fs P). rewrite ES in PF |- *. cbn [t_weight]. cbn [P erase] in WP, PF |- *. cbn [branch_index branch_bmp twigs rbind].
    rewrite (wf_weight _ _ _ WP), zlen_map. cbn [rbind]. replace ((0 <=? zlen l) && (zlen l <? zlen tw)) with true by lia. cbn [negb].
    assert (W2 : ht_weight t - 1 <> 0).
    { pose proof (wf_nonempty _ W) as _. rewrite TW. pose proof WP as (_ & _ & L2 & _).
      assert (Q : forall fs g, zlen (elems (erase g)) <= zlen (elems (erase (fill fs g)))).
      { clear. induction fs as [|f fs IH]; intros g; [cbn; lia|]. cbn [fill]. specialize (IH (GB false (f_i f) (f_b f) (f_a f) (f_l f ++ g :: f_r f))). cbn [erase elems] in IH. rewrite map_app, flat_map_app in IH. cbn [map flat_map] in IH. rewrite !zlen_app in IH.
        pose proof (zlen_nonneg (flat_map elems (map erase (f_l f)))). pose proof (zlen_nonneg (flat_map elems (map erase (f_r f)))). lia. }
      specialize (Q fs P). assert (Q2 : zlen (map erase tw) <= zlen (elems (erase P))).
      { cbn [P erase elems]. fold tw. clear - WP. assert (Forall wf (map erase tw)) as FW by (apply Forall_forall; intros c C; eapply wf_child; eauto). clear WP. induction FW as [|c m Wc FW IH]; [cbn; lia|]. cbn [flat_map]. rewrite zlen_cons, zlen_app. pose proof (wf_weight_pos _ Wc). lia. }
      lia. }
    pose proof WP as (_ & _ & L2 & _). rewrite zlen_map in L2.
    destruct (zlen tw =? 2) eqn:E2.
    + assert (exists o, (l = [] /\ r = [o]) \/ (l = [o] /\ r = [])) as (o & O).
      { destruct l as [|c l]; destruct r as [|d r]; rewrite ?zlen_nil, ?zlen_cons in LT; try (pose proof (zlen_nonneg l)); try (pose proof (zlen_nonneg r)); try lia.
        - exists d. left. destruct r as [|? r]; [auto|]. rewrite zlen_cons in LT. pose proof (zlen_nonneg r). lia.
        - exists c. right. destruct l as [|? l]; [auto|]. rewrite zlen_cons in LT. pose proof (zlen_nonneg l). lia. }
      assert (ZO : zget (map (mkc false) (map word_of tw)) (1 - zlen l) = Some (mkc false (word_of o)) /\ zget (map erase tw) (1 - zlen l) = Some (erase o) /\ (tw = [GL false ka k v; o] \/ tw = [o; GL false ka k v])).
      { unfold tw. destruct O as [[-> ->]|[-> ->]]; cbn [app map]; (split; [reflexivity|]; split; [reflexivity|auto]). }
      destruct ZO as (Z1 & Z2 & Z3). rewrite Z1, Z2. cbn [rbind].
      destruct (wr_focus h1 fs (word_of P) (word_of o) FH1) as (h2 & W2' & N2 & E2'). cbn [P word_of] in W2'. rewrite W2'. cbn [rbind]. unfold h_free. rewrite E2', wr_get_same by (apply RG; auto). rewrite G1, HA by auto. cbn [rbind].
      eexists _, _, (Some (fill fs o)). split; [reflexivity|]. split; [|split; [split; [cbn [ht_root]; rewrite word_fill; auto|auto]|rewrite PF; auto]].
      eapply del2_inv; [exact I|exact Z3| | | |].
      * cbn [h_set h_next]. rewrite N2. auto.
      * intros a A1 A2. cbn [h_set h_get]. replace (a =? aa) with false by lia. rewrite E2'. apply wr_get_eq. apply G1. auto.
      * cbn [h_set h_get]. rewrite Z.eqb_refl. auto.
      * cbn [h_set h_get]. replace (ka =? aa) with false by lia. rewrite E2', wr_get_same by (apply RG; auto). auto.
    + assert (CS : forall {A B} (q : A -> B) (x : A) l r, zfirstn (zlen l) (map q (l ++ x :: r)) ++ zskipn (zlen l + 1) (map q (l ++ x :: r)) = map q (l ++ r)).
      { clear. intros A B q x l r. rewrite !map_app. cbn [map]. rewrite zfirstn_app_exact by (rewrite zlen_map; auto). f_equal. replace (map q l ++ q x :: map q r) with ((map q l ++ [q x]) ++ map q r) by (rewrite <- app_assoc; auto). apply zskipn_app_exact. rewrite zlen_app, zlen_map. reflexivity. }
      cbn [rbind]. rewrite map_map. unfold tw. rewrite !CS. rewrite <- map_map. assert (NE : l ++ r <> []) by (intros C; apply app_eq_nil in C; destruct C as [-> ->]; rewrite !zlen_nil in LT; lia).
      unfold h_alloc. change (h_next h1) with (h_next h). destruct (al (h_next h)) eqn:EA.
      * set (n := h_next h) in *. set (h2 := h_set (mkh (n + 1) (h_get h1)) n (Some (OArr (map (mkc false) (map word_of (l ++ r)))))).
        assert (RA : 0 < aa < n /\ 0 < ka < n) by (split; apply RG; auto).
        assert (G2 : forall a, a <> n -> h_get h2 a = h_get h1 a) by (intros a A; cbn [h2 h_set h_get]; replace (a =? n) with false by lia; auto). unfold h_free. rewrite G2, G1, HA by lia. cbn [rbind].
        set (h3 := h_set h2 aa None). assert (G3 : forall a, a <> aa -> h_get h3 a = h_get h2 a) by (intros a A; cbn [h3 h_set h_get]; replace (a =? aa) with false by lia; auto).
        assert (FH3 : fhold h3 fs (word_of P)). { eapply fhold_local; [exact FP|]. intros a A L. rewrite G3 by (intros ->; auto). rewrite G2 by lia. apply G1. intros ->; auto. }
        destruct (wr_focus h3 fs (word_of P) (WBranch i (Z.land bm (Z.lnot b)) n) FH3) as (h4 & W4 & N4 & E4). cbn [P word_of] in W4. rewrite W4. cbn [rbind].
        assert (NF : forall a, n <= a -> ~ In a (fexcl fs)). { intros a A C. assert (0 < a < h_next h) by (apply (f_rng _ _ _ FP); right; apply in_app_iff; auto). lia. }
        eexists h4, _, (Some (fill fs (GB false i (Z.land bm (Z.lnot b)) n (l ++ r)))). split; [reflexivity|]. split; [|split; [split; [cbn [ht_root]; rewrite word_fill; auto|auto]|]].
        -- eapply del3_inv; [exact I|auto|right; split; [reflexivity|]; split| | |].
           ++ rewrite N4. reflexivity.
           ++ rewrite E4, wr_get_same by (apply RG; auto). cbn [h3 h_set h_get]. rewrite Z.eqb_refl. auto.
           ++ intros a A1 A2 A3. rewrite E4. apply wr_get_eq. rewrite G3, G2, G1 by auto. auto.
           ++ rewrite E4, wr_get_same by (apply RG; auto). rewrite G3, G2 by lia. auto.
           ++ rewrite E4, wr_get_same by (apply NF; unfold n; lia). rewrite G3 by lia. cbn [h2 h_set h_get]. rewrite Z.eqb_refl, cells_false. auto.
        -- specialize (PF (GB false i (Z.land bm (Z.lnot b)) n (l ++ r))). cbn [erase] in PF. unfold tw in *. rewrite PF. auto.
      * set (h2 := h_set h1 aa (Some (OArr (map (mkc false) (map word_of (l ++ r)))))). assert (G2 : forall a, a <> aa -> h_get h2 a = h_get h1 a) by (intros a A; cbn [h2 h_set h_get]; replace (a =? aa) with false by lia; auto).
        assert (FH2 : fhold h2 fs (word_of P)). { eapply fhold_local; [exact FP|]. intros a A L. rewrite G2 by (intros ->; auto). apply G1. intros ->; auto. }
        destruct (wr_focus h2 fs (word_of P) (WBranch i (Z.land bm (Z.lnot b)) aa) FH2) as (h4 & W4 & N4 & E4). cbn [P word_of] in W4. rewrite W4. cbn [rbind].
        eexists h4, _, (Some (fill fs (GB false i (Z.land bm (Z.lnot b)) aa (l ++ r)))). split; [reflexivity|]. split; [|split; [split; [cbn [ht_root]; rewrite word_fill; auto|auto]|]].
        -- eapply del3_inv; [exact I|auto|left; split; [reflexivity|]| | |].
           ++ rewrite N4. reflexivity.
           ++ intros a A1 A2 A3. rewrite E4. apply wr_get_eq. rewrite G2, G1 by auto. auto.
           ++ rewrite E4, wr_get_same by (apply RG; auto). rewrite G2 by auto. auto.
           ++ rewrite E4, wr_get_same by (apply RG; auto). cbn [h2 h_set h_get]. rewrite Z.eqb_refl, cells_false. auto.
        -- specialize (PF (GB false i (Z.land bm (Z.lnot b)) aa (l ++ r))). cbn [erase] in PF. unfold tw in *. rewrite PF. auto.
Qed.
