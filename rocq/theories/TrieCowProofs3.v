(** Proofs about the copy-on-write trie: copying keys, pushing down a whole stack, reading the tree. *)
From Verif Require Import Base TrieModel TrieSpec TrieProofs TrieProofs2 TrieProofs3 TrieProofs4 TrieCowModel TrieCowProofs TrieCowProofs2.
From Coq Require Import Permutation.

Lemma h_mkleaf_spec : forall al h key, key_ok key -> h_mkleaf al h key =
  if al (h_next h) then Some (h_set (mkh (h_next h + 1) (h_get h)) (h_next h) (Some (OKey false key)), WLeaf (h_next h) 0) else None.
Proof.
  intros al h key [B L]. unfold h_mkleaf, KEYLENBITS. cbv zeta. pose proof (zlen_nonneg key). change (Z.shiftl 1 31) with (2 ^ 31).
  replace (zlen key >? 2 ^ 31) with false by lia. rewrite Z.mod_small by lia. unfold zfirstn, zlen. rewrite Nat2Z.id, firstn_all. unfold h_alloc. destruct (al (h_next h)); auto.
Qed.
Lemma wr_get_same : forall h fs w x, ~ In x (fexcl fs) -> wr_get h fs w x = h_get h x.
Proof. intros h [|f fs] w x H; [auto|]. cbn [wr_get]. destruct (x =? f_a f) eqn:E; [|auto]. exfalso. apply H. cbn. left. lia. Qed.

Lemma key_step : forall al h fo fn ka k v v', key_ok k ->
  inv h (Some (fill fo (GL true ka k v'))) (Some (fill fn (GL true ka k v))) ->
  (al (h_next h) = false /\ h_mkleaf al h k = None) \/
  exists h1 h2 n, h_mkleaf al h k = Some (h1, WLeaf n 0) /\
    wr h1 (mkc false (rootw fn (WLeaf ka v))) (fptr fn) (mkc false (WLeaf n v)) = Ok (h2, mkc false (rootw fn (WLeaf n v))) /\
    h_get h2 ka = Some (OKey true k) /\
    inv (h_set h2 ka (Some (OKey false k))) (Some (fill fo (GL false ka k v'))) (Some (fill fn (GL false n k v))).
Proof.
  intros al h fo fn ka k v v' K I. rewrite h_mkleaf_spec by auto. destruct (al (h_next h)) eqn:EA; [right|left; auto].
  pose proof (inv_fresh _ _ _ I) as FR. pose proof (fun x => inv_live h _ _ x I) as LV. destruct I as [i_go0 i_gn0 i_ho0 i_hn0 i_perm0 i_nd0 i_dom0 i_rng0 i_next0]. set (n := h_next h) in *.
  cbn [oexcl oshr ogok oholds] in *. unfold oshra in *. cbn [oshr] in *.
  apply gok_fill in i_go0. destruct i_go0 as [ko _]. apply gok_fill in i_gn0. destruct i_gn0 as [kn _]. apply holds_fill in i_ho0. destruct i_ho0 as [fho ht]. apply holds_fill in i_hn0. destruct i_hn0 as [fhn _].
  cbn [holds word_of] in *.
  assert (PT : Permutation (excl (fill fo (GL true ka k v')) ++ excl (fill fn (GL true ka k v)) ++ flat_map iaddr (shr (fill fn (GL true ka k v))))
     (ka :: fexcl fo ++ fexcl fn ++ fshra fn)).
  { rewrite !excl_fill. cbn [excl]. rewrite !app_nil_r. change (flat_map iaddr (shr (fill fn (GL true ka k v)))) with (shra (fill fn (GL true ka k v))). rewrite shra_fill. unfold shra. cbn [shr flat_map iaddr app]. rewrite !app_assoc. symmetry. apply Permutation_cons_append. }
  assert (PF : Permutation (fshra fo) (fshra fn)).
  { apply fm_perm_l. rewrite !shr_fill in i_perm0. cbn [shr] in i_perm0. apply Permutation_app_inv_r in i_perm0. auto. }
  assert (FR' : ~ In n (ka :: fexcl fo ++ fexcl fn ++ fshra fn)) by (intros C; apply FR; eapply Permutation_in; [symmetry; exact PT|exact C]).
  pose proof (nd_perm _ _ PT i_nd0) as ND. pose proof ND as ND'. apply NoDup_cons_iff in ND'. destruct ND' as [ND1 ND2].
  assert (NA : ka <> n) by (intros ->; apply FR'; cbn; auto).
  set (h1 := h_set (mkh (n + 1) (h_get h)) n (Some (OKey false k))).
  assert (E1 : forall x, x <> n -> h_get h1 x = h_get h x) by (intros x Hx; cbn [h1 h_set h_get]; replace (x =? n) with false by lia; auto).
  assert (EI : forall x, In x (fexcl fo ++ fexcl fn ++ fshra fn) -> x <> n /\ x <> ka) by (intros x Hx; split; [intros ->; apply FR'; right; auto|intros ->; auto]).
  assert (FN1 : fhold h1 fn (WLeaf ka v)) by (eapply fhold_ext; [|exact fhn]; intros x Hx; apply E1; apply (EI x); rewrite !in_app_iff in *; tauto).
  destruct (wr_focus h1 fn (WLeaf ka v) (WLeaf n v) FN1) as (h2 & W2 & N2 & E2). exists h1, h2, n. split; [reflexivity|]. split; [exact W2|].
  assert (NKF : ~ In ka (fexcl fn)) by (intros C; apply ND1; rewrite !in_app_iff; auto). assert (NNF : ~ In n (fexcl fn)) by (intros C; apply FR'; right; rewrite !in_app_iff; auto).
  split; [rewrite E2, wr_get_same by auto; rewrite E1 by auto; auto|].
  set (h3 := h_set h2 ka (Some (OKey false k))). assert (E3 : forall x, h_get h3 x = if x =? ka then Some (OKey false k) else wr_get h1 fn (WLeaf n v) x) by (intros x; cbn [h3 h_set h_get]; rewrite E2; auto).
  assert (E4 : forall x, In x (fexcl fo ++ fshra fn) -> h_get h3 x = h_get h x).
  { intros x Hx. assert (In x (fexcl fo ++ fexcl fn ++ fshra fn)) as X by (rewrite !in_app_iff in *; tauto). destruct (EI x X). rewrite E3. replace (x =? ka) with false by lia. rewrite wr_get_same; [apply E1; auto|].
    intros C. apply nd_app in ND2. destruct ND2 as (_ & ND2 & ND3). apply nd_app in ND2. destruct ND2 as (_ & _ & ND2). apply in_app_iff in Hx. destruct Hx as [Hx|Hx]; [apply (ND3 x); auto; apply in_app_iff; auto|apply (ND2 x); auto]. }
  assert (N3 : h_next h3 = n + 1) by (cbn [h3 h_set h_next]; rewrite N2; reflexivity).
  assert (PT2 : Permutation (excl (fill fo (GL false ka k v')) ++ excl (fill fn (GL false n k v)) ++ flat_map iaddr (shr (fill fn (GL false n k v)))) (n :: ka :: fexcl fo ++ fexcl fn ++ fshra fn)).
  { rewrite !excl_fill. cbn [excl]. change (flat_map iaddr (shr (fill fn (GL false n k v)))) with (shra (fill fn (GL false n k v))). rewrite shra_fill. unfold shra. cbn [shr flat_map]. rewrite app_nil_r. rewrite <- !app_assoc. cbn [app].
    rewrite <- (Permutation_middle (fexcl fo)). rewrite <- (Permutation_middle (fexcl fn)). rewrite <- (Permutation_middle (fexcl fo)). apply perm_swap. }
  assert (DM : forall x, h_get h3 x <> None -> In x (n :: ka :: fexcl fo ++ fexcl fn ++ fshra fn)).
  { intros x Hx. destruct (in_dec Z.eq_dec x (n :: ka :: fexcl fo ++ fexcl fn ++ fshra fn)) as [C|C]; [auto|exfalso]. cbn [In] in C. rewrite !in_app_iff in C. apply Hx. rewrite E3. replace (x =? ka) with false by lia. rewrite wr_get_same by tauto. rewrite E1 by lia.
    destruct (h_get h x) eqn:E; [|auto]. exfalso. assert (h_get h x <> None) as X by congruence. apply i_dom0 in X. eapply Permutation_in in X; [|exact PT]. cbn [In] in X. rewrite !in_app_iff in X. tauto. }
  constructor; cbn [ogok oholds oexcl oshr]; unfold oshra; cbn [oshr].
  - apply gok_fill. split; [auto|exact Logic.I].
  - apply gok_fill. split; [auto|exact Logic.I].
  - apply holds_fill. cbn [holds word_of]. split; [|rewrite E3, Z.eqb_refl; auto]. eapply fhold_ext; [|exact fho]. intros x Hx. apply E4. apply in_app_iff in Hx. apply in_app_iff. destruct Hx as [Hx|Hx]; [auto|right; eapply Permutation_in; [exact PF|exact Hx]].
  - apply holds_fill. cbn [holds word_of]. split.
    + eapply fhold_write; [exact FN1| |].
      * apply nd_app in ND2. apply ND2.
      * intros x Hx. rewrite E3. assert (x <> ka) by (apply (EI x); rewrite !in_app_iff in *; tauto). replace (x =? ka) with false by lia. auto.
    + rewrite E3. replace (n =? ka) with false by lia. rewrite wr_get_same by auto. cbn [h1 h_set h_get]. rewrite Z.eqb_refl. auto.
  - rewrite !shr_fill in *. cbn [shr] in *. apply Permutation_app_inv_r in i_perm0. rewrite !app_nil_r. auto.
  - eapply nd_perm; [symmetry; exact PT2|]. constructor; auto.
  - intros x Hx. eapply Permutation_in; [symmetry; exact PT2|]. auto.
  - intros x Hx. rewrite N3. apply DM in Hx. destruct Hx as [<-|Hx]; [lia|]. assert (h_get h x <> None) as Y by (apply LV; eapply Permutation_in; [symmetry; exact PT|exact Hx]). apply i_rng0 in Y. lia.
  - lia.
Qed.

(** *** paths *)
Fixpoint gptrs (g : gnode) (js : list Z) : option (list ptr) :=
  match js with
  | [] => Some []
  | j :: js =>
    match g with
    | GL _ _ _ _ => None
    | GB _ _ _ aa tw =>
      match zget tw j with Some c => match gptrs c js with Some ps => Some (PCell aa j :: ps) | None => None end | None => None end
    end
  end.
Lemma gptrs_setf : forall f js g, gptrs (setf f g) js = gptrs g js.
Proof. intros f [|j js] [|]; auto. Qed.
Lemma zget_map : forall {A B} (f : A -> B) l j, zget (map f l) j = option_map f (zget l j).
Proof. intros. unfold zget. destruct (j <? 0); [auto|]. rewrite nth_error_map. auto. Qed.
Lemma zget_split : forall {A} (l : list A) j c, zget l j = Some c -> exists l1 l2, l = l1 ++ c :: l2 /\ zlen l1 = j.
Proof.
  intros A l j c H. pose proof (zget_some _ _ _ H) as R. unfold zget in H. replace (j <? 0) with false in H by lia. apply nth_error_split in H. destruct H as (l1 & l2 & -> & E). exists l1, l2. split; [auto|]. unfold zlen. lia.
Qed.
Lemma gptrs_some : forall js g t, node_at (erase g) js = Some t -> exists ps, gptrs g js = Some ps.
Proof.
  induction js as [|j js IH]; intros g t H; [exists []; auto|]. destruct g as [s ka k v|s i b aa tw]; cbn [erase node_at gptrs] in *; [discriminate|]. rewrite zget_map in H. destruct (zget tw j) as [c|]; cbn [option_map] in H; [|discriminate].
  destruct (IH c t H) as (ps & ->). eauto.
Qed.
Lemma ptrs_spec : forall js h g ps, holds h g -> gptrs g js = Some ps -> ptrs_down h (word_of g) js = Ok ps.
Proof.
  induction js as [|j js IH]; intros h g ps H E; cbn [gptrs] in E; [inversion E; auto|]. destruct g as [s ka k v|s i b aa tw]; [discriminate|]. apply holds_B in H. destruct H as (A & N & F).
  destruct (zget tw j) as [c|] eqn:G; [|discriminate]. destruct (gptrs c js) as [ps'|] eqn:EP; [|discriminate]. inversion E; subst ps. cbn [word_of ptrs_down]. unfold rd, h_arr. rewrite A. cbn [rbind].
  pose proof G as G0. apply zget_In in G0. rewrite Forall_forall in F. destruct (zget_split _ _ _ G) as (l & r & -> & <-). rewrite map_app. cbn [map]. destruct (zget_cells s (map word_of l) (word_of c) (map word_of r)) as (f & Z0). rewrite zlen_map in Z0. rewrite Z0. cbn [rbind c_w].
  rewrite (IH h c ps'); auto.
Qed.
(** the stack of pointers to the frames *)
Fixpoint chainp (ext fn : list frame) : list ptr :=
  match ext with [] => [fptr fn] | f :: ext' => chainp ext' fn ++ [fptr (f :: ext' ++ fn)] end.
Lemma chainp_snoc : forall ext f fn, chainp (ext ++ [f]) fn = fptr fn :: chainp ext (f :: fn).
Proof. induction ext as [|x ext IH]; intros f fn; [auto|]. cbn [app chainp]. rewrite IH. rewrite <- app_assoc. auto. Qed.
Definition fpath (fs : list frame) : list Z := rev (map (fun f => zlen (f_l f)) fs).

(** *** pushing down *)
Lemma cow_marked_spec : forall h g, holds h g -> cow_marked h (word_of g) = Ok (match g with GB s _ _ _ _ => s | GL _ _ _ _ => false end).
Proof.
  intros h [s ka k v|s i b aa tw] H; [auto|]. apply holds_B in H. destruct H as (A & N & _). cbn [word_of cow_marked]. unfold h_arr. rewrite A. cbn [rbind]. destruct tw; [congruence|]. auto.
Qed.
Lemma cow_key_spec : forall h g, holds h g -> cow_key h (word_of g) = Ok (match g with GB _ _ _ _ _ => false | GL s _ _ _ => s end).
Proof. intros h [s ka k v|s i b aa tw] H; [|auto]. cbn [word_of cow_key]. unfold h_key. cbn [holds] in H. rewrite H. auto. Qed.
Lemma wf_gweight : forall s i b a tw, wf (erase (GB s i b a tw)) -> branch_weight (Branch i b []) = Ok (zlen tw).
Proof. intros s i b a tw W. cbn [erase] in W. apply wf_weight in W. rewrite weight_nil, zlen_map in W. auto. Qed.
Lemma erase_map_setf : forall f l, map erase (map (setf f) l) = map erase l.
Proof. intros. rewrite map_map. apply map_ext. intros. apply erase_setf. Qed.
Lemma erase_fill_at : forall fs s i b a a' tw tw' s', map erase tw = map erase tw' -> erase (fill fs (GB s i b a tw)) = erase (fill fs (GB s' i b a' tw')).
Proof. intros. apply erase_fill_eq. cbn [erase]. congruence. Qed.

Lemma pushdown_cons : forall al h root p ps tw, cow_pushdown al h root (p :: ps) tw =
    let* p := match tw, p with
      | None, _ => Ok p
      | Some (o, n), PCell a j => if a =? o then Ok (PCell n j) else UB
      | Some _, PRoot => UB
      end in
    let* c := rd h root p in
    let* m := cow_marked h (c_w c) in
    if m then
      let* r := cow_pushdown_one al h (c_w c) in
      match r with
      | None => Ok (h, root, p :: ps, false)
      | Some (h, w) =>
        let* (h, root) := wr h root p (mkc (c_cow c) w) in
        let* tw := match c_w c, w with WBranch _ _ o, WBranch _ _ n => Ok (Some (o, n)) | _, _ => UB end in
        let* (h, root, ps, ok) := cow_pushdown al h root ps tw in
        Ok (h, root, p :: ps, ok)
      end
    else
      let* k := cow_key h (c_w c) in
      let* (h, root, ok) :=
        if k then
          match c_w c with
          | WBranch _ _ _ => UB
          | WLeaf ka v =>
            let* (_, ch) := h_key h ka in
            match h_mkleaf al h ch with
            | None => Ok (h, root, false)
            | Some (h, w) =>
              match w with
              | WBranch _ _ _ => UB
              | WLeaf ka' _ =>
                let* (h, root) := wr h root p (mkc false (WLeaf ka' v)) in
                let* (_, ch) := h_key h ka in
                Ok (h_set h ka (Some (OKey false ch)), root, true)
              end
            end
          end
        else Ok (h, root, true) in
      if negb ok then Ok (h, root, p :: ps, false) else
      let* (h, root, ps, ok) := cow_pushdown al h root ps None in
      Ok (h, root, p :: ps, ok).
Proof. reflexivity. Qed.

(** the tree and its root node *)
Definition ew (g : gnode) : node * word := (erase g, word_of g).
Lemma ew_fill : forall fs a b, erase a = erase b -> word_of a = word_of b -> ew (fill fs a) = ew (fill fs b).
Proof. intros fs a b E W. unfold ew. f_equal; [apply erase_fill_eq; auto|]. rewrite !word_fill, W. auto. Qed.
Definition reloc (tw : option (Z * Z)) (p0 p : ptr) : Prop :=
  match tw with None => p0 = p | Some (o, n) => exists j, p0 = PCell o j /\ p = PCell n j end.
Lemma pushdown_spec : forall js al h go fn g ps p0 tw,
  inv h go (Some (fill fn g)) -> wf (erase g) -> gptrs g js = Some ps -> reloc tw p0 (fptr fn) ->
  exists h' ps' ok go' gn', cow_pushdown al h (mkc false (rootw fn (word_of g))) (p0 :: ps) tw = Ok (h', mkc false (word_of gn'), ps', ok) /\
    inv h' go' (Some gn') /\ option_map ew go' = option_map ew go /\ erase gn' = erase (fill fn g) /\
    (ok = false -> exists n, al n = false) /\
    (ok = true -> exists ext g', gn' = fill (ext ++ fn) g' /\ gflag g' = false /\ fpath ext = js /\ ps' = chainp ext fn).
Proof.
  induction js as [|j js IH]; intros al h go fn g ps p0 tw I W GP RL.
  - (* the last one *)
    cbn [gptrs] in GP. inversion GP; subst ps. rewrite pushdown_cons.
    assert (RP : (match tw, p0 with None, _ => Ok p0 | Some (o, n), PCell a j => if a =? o then Ok (PCell n j) else UB | Some _, PRoot => UB end) = Ok (fptr fn)).
    { destruct tw as [[o n]|]; cbn [reloc] in RL; [|congruence]. destruct RL as (j & -> & ->). rewrite Z.eqb_refl. auto. }
    rewrite RP. cbn [rbind]. pose proof (i_hn _ _ _ I) as HN. cbn [oholds] in HN. apply holds_fill in HN. destruct HN as [FH HG]. rewrite rd_focus by auto. cbn [rbind c_w c_cow]. rewrite cow_marked_spec by auto. cbn [rbind].
    destruct g as [s ka k v|s i b a twg].
    + rewrite cow_key_spec by auto. cbn [rbind]. destruct s.
      * assert (IN : In (SKey ka k) (oshr go)). { eapply Permutation_in; [symmetry; apply (i_perm _ _ _ I)|]. cbn [oshr]. eapply Permutation_in; [symmetry; apply shr_fill|]. cbn [shr]. apply in_app_iff. right. left. auto. }
        destruct go as [go|]; [|destruct IN]. cbn [oshr] in IN. destruct (shr_place _ _ IN) as (fo & sub & -> & SI). destruct sub as [[] ka' k' v'|[] ? ? ? ?]; cbn [is_item] in SI; try tauto. destruct SI as [-> ->].
        cbn [word_of]. unfold h_key. cbn [holds] in HG. rewrite HG. cbn [rbind].
        destruct (key_step al h fo fn ka k v v') as [[EA ->]|(h1 & h2 & n & -> & -> & HK & I2)]; [exact W|exact I| |].
        -- cbn [rbind negb]. exists h, [fptr fn], false, (Some (fill fo (GL true ka k v'))), (fill fn (GL true ka k v)). split; [rewrite word_fill; auto|]. split; [auto|]. split; [auto|]. split; [auto|]. split; [eauto|discriminate].
        -- cbn [rbind]. rewrite HK. cbn [rbind negb]. eexists _, _, _, (Some (fill fo (GL false ka k v'))), (fill fn (GL false n k v)). split; [rewrite word_fill; reflexivity|]. split; [exact I2|]. split; [cbn [option_map]; f_equal; apply ew_fill; auto|]. split; [apply erase_fill_eq; auto|]. split; [discriminate|].
           intros _. exists [], (GL false n k v). auto.
      * cbn [negb rbind]. exists h, [fptr fn], true, go, (fill fn (GL false ka k v)). rewrite word_fill. split; [auto|]. split; [auto|]. split; [auto|]. split; [auto|]. split; [discriminate|]. intros _. exists [], (GL false ka k v). auto.
    + destruct s.
      * assert (IN : In (SArr a twg) (oshr go)). { eapply Permutation_in; [symmetry; apply (i_perm _ _ _ I)|]. cbn [oshr]. eapply Permutation_in; [symmetry; apply shr_fill|]. cbn [shr]. apply in_app_iff. right. left. auto. }
        destruct go as [go|]; [|destruct IN]. cbn [oshr] in IN. destruct (shr_place _ _ IN) as (fo & sub & -> & SI). destruct sub as [[] ka' k' v'|[] i' b' a' tw']; cbn [is_item] in SI; try tauto. destruct SI as [-> ->].
        cbn [word_of]. destruct (pushdown_step al h fo fn i b i' b' a twg I (wf_gweight _ _ _ _ _ W)) as [[EA ->]|(h1 & h2 & n & -> & E2 & I2)].
        -- cbn [rbind]. eexists h, _, false, (Some (fill fo (GB true i' b' a twg))), (fill fn (GB true i b a twg)). rewrite word_fill. split; [reflexivity|]. split; [auto|]. split; [auto|]. split; [auto|]. split; [eauto|discriminate].
        -- cbn [rbind]. rewrite E2. cbn [rbind]. eexists _, _, true, (Some (fill fo (GB false i' b' a (map (setf true) twg)))), (fill fn (GB false i b n (map (setf true) twg))). split; [rewrite word_fill; reflexivity|]. split; [exact I2|]. split; [cbn [option_map]; f_equal; apply ew_fill; [cbn [erase]; rewrite erase_map_setf; auto|auto]|]. split; [apply erase_fill_at; apply erase_map_setf|]. split; [discriminate|].
           intros _. exists [], (GB false i b n (map (setf true) twg)). auto.
      * rewrite cow_key_spec by auto. cbn [rbind negb]. exists h, [fptr fn], true, go, (fill fn (GB false i b a twg)). rewrite word_fill. split; [auto|]. split; [auto|]. split; [auto|]. split; [auto|]. split; [discriminate|]. intros _. exists [], (GB false i b a twg). auto.
  - cbn [gptrs] in GP. destruct g as [|s i b a twg]; [discriminate|]. destruct (zget twg j) as [c|] eqn:GJ; [|discriminate]. destruct (gptrs c js) as [ps'|] eqn:EP; [|discriminate]. inversion GP; subst ps. rewrite pushdown_cons.
    assert (RP : (match tw, p0 with None, _ => Ok p0 | Some (o, n), PCell a j => if a =? o then Ok (PCell n j) else UB | Some _, PRoot => UB end) = Ok (fptr fn)).
    { destruct tw as [[o n]|]; cbn [reloc] in RL; [|congruence]. destruct RL as (j' & -> & ->). rewrite Z.eqb_refl. auto. }
    rewrite RP. cbn [rbind]. pose proof (i_hn _ _ _ I) as HN. cbn [oholds] in HN. apply holds_fill in HN. destruct HN as [FH HG]. rewrite rd_focus by auto. cbn [rbind c_w c_cow]. rewrite cow_marked_spec by auto. cbn [rbind].
    assert (WC : wf (erase c)). { cbn [erase] in W. eapply wf_child; [exact W|]. apply in_map. eapply zget_In; eauto. }
    destruct (zget_split _ _ _ GJ) as (l & r & EL & LJ). destruct s.
    + assert (IN : In (SArr a twg) (oshr go)). { eapply Permutation_in; [symmetry; apply (i_perm _ _ _ I)|]. cbn [oshr]. eapply Permutation_in; [symmetry; apply shr_fill|]. cbn [shr]. apply in_app_iff. right. left. auto. }
      destruct go as [go|]; [|destruct IN]. cbn [oshr] in IN. destruct (shr_place _ _ IN) as (fo & sub & -> & SI). destruct sub as [[] ka' k' v'|[] i' b' a' tw']; cbn [is_item] in SI; try tauto. destruct SI as [-> ->].
      cbn [word_of]. destruct (pushdown_step al h fo fn i b i' b' a twg I (wf_gweight _ _ _ _ _ W)) as [[EA ->]|(h1 & h2 & n & -> & E2 & I2)].
      * cbn [rbind]. eexists h, _, false, (Some (fill fo (GB true i' b' a twg))), (fill fn (GB true i b a twg)). rewrite word_fill. split; [reflexivity|]. split; [auto|]. split; [auto|]. split; [auto|]. split; [eauto|discriminate].
      * cbn [rbind]. rewrite E2. cbn [rbind]. assert (EF : fill fn (GB false i b n (map (setf true) twg)) = fill (mkf i b n (map (setf true) l) (map (setf true) r) :: fn) (setf true c)).
        { cbn [fill f_i f_b f_a f_l f_r]. rewrite EL, map_app. auto. }
        destruct (IH al h2 (Some (fill fo (GB false i' b' a (map (setf true) twg)))) (mkf i b n (map (setf true) l) (map (setf true) r) :: fn) (setf true c) ps' (PCell a j) (Some (a, n))) as (h' & ps2 & ok & go' & gn' & EC & I' & EG & EN & OKF & OKT).
        { rewrite <- EF. exact I2. } { rewrite erase_setf. exact WC. } { rewrite gptrs_setf. exact EP. } { exists j. cbn [fptr f_a f_l]. rewrite zlen_map, LJ. auto. }
        rewrite word_setf in EC. cbn [rootw f_i f_b f_a] in EC.
        rewrite EC. cbn [rbind]. eexists _, _, _, go', gn'. split; [reflexivity|]. split; [auto|]. split; [rewrite EG; cbn [option_map]; f_equal; apply ew_fill; [cbn [erase]; rewrite erase_map_setf; auto|auto]|].
        split; [rewrite EN, <- EF; apply erase_fill_at; apply erase_map_setf|]. split; [auto|]. intros EO. destruct (OKT EO) as (ext & g' & E3 & E4 & E5 & E6). exists (ext ++ [mkf i b n (map (setf true) l) (map (setf true) r)]), g'.
        split; [rewrite <- app_assoc; auto|]. split; [auto|]. split; [|rewrite chainp_snoc, E6; auto]. unfold fpath in *. rewrite map_app, rev_app_distr. cbn [map rev app f_l]. rewrite E5, zlen_map, LJ. auto.
    + rewrite cow_key_spec by auto. cbn [rbind negb].
      assert (EF : fill fn (GB false i b a twg) = fill (mkf i b a l r :: fn) c) by (cbn [fill f_i f_b f_a f_l f_r]; rewrite EL; auto).
      destruct (IH al h go (mkf i b a l r :: fn) c ps' (PCell a j) None) as (h' & ps2 & ok & go' & gn' & EC & I' & EG & EN & OKF & OKT).
      { rewrite <- EF. exact I. } { exact WC. } { exact EP. } { cbn [reloc fptr f_a f_l]. rewrite LJ. auto. }
      cbn [rootw f_i f_b f_a] in EC. cbn [word_of]. rewrite EC. cbn [rbind]. eexists _, _, _, go', gn'. split; [reflexivity|]. split; [auto|]. split; [auto|]. split; [rewrite EF; auto|]. split; [auto|].
      intros EO. destruct (OKT EO) as (ext & g' & E3 & E4 & E5 & E6). exists (ext ++ [mkf i b a l r]), g'. split; [rewrite <- app_assoc; auto|]. split; [auto|]. split; [|rewrite chainp_snoc, E6; auto]. unfold fpath in *. rewrite map_app, rev_app_distr. cbn [map rev app f_l]. rewrite E5, LJ. auto.
Qed.

(** outside of a transaction there is nothing to push down *)
Lemma place_spec : forall js g fn ps, shr g = [] -> gptrs g js = Some ps ->
  exists ext g', fill fn g = fill (ext ++ fn) g' /\ gflag g' = false /\ fpath ext = js /\ fptr fn :: ps = chainp ext fn.
Proof.
  induction js as [|j js IH]; intros g fn ps SH GP; cbn [gptrs] in GP.
  - inversion GP; subst. exists [], g. split; [auto|]. split; [|auto]. destruct g as [[]|[]]; cbn [shr] in SH; auto; discriminate.
  - destruct g as [|s i b a twg]; [discriminate|]. destruct (zget twg j) as [c|] eqn:GJ; [|discriminate]. destruct (gptrs c js) as [ps'|] eqn:EP; [|discriminate]. inversion GP; subst ps. cbn [shr] in SH. destruct s; [discriminate|].
    destruct (zget_split _ _ _ GJ) as (l & r & EL & LJ). assert (SC : shr c = []). { rewrite EL, fm_app in SH. cbn [flat_map] in SH. apply app_eq_nil in SH. destruct SH as [_ SH]. apply app_eq_nil in SH. tauto. }
    destruct (IH c (mkf i b a l r :: fn) ps' SC EP) as (ext & g' & E3 & E4 & E5 & E6). exists (ext ++ [mkf i b a l r]), g'. cbn [fill f_i f_b f_a f_l f_r] in E3. rewrite <- EL in E3. split; [rewrite <- app_assoc; auto|]. split; [auto|].
    split; [unfold fpath in *; rewrite map_app, rev_app_distr; cbn [map rev app f_l]; rewrite E5, LJ; auto|]. rewrite chainp_snoc. cbn [fptr f_a f_l] in E6. rewrite LJ in E6. rewrite <- E6. auto.
Qed.

(** *** reading the tree *)
Fixpoint gh (g : gnode) : nat :=
  match g with GL _ _ _ _ => 1%nat | GB _ _ _ _ tw => S (fold_right (fun c n => Nat.max (gh c) n) 0%nat tw) end.
Lemma gh_alla : forall g, (gh g <= length (alla g))%nat.
Proof.
  induction g as [s ka k v|s i b aa tw IH] using gnode_ind2; [cbn; lia|]. cbn [gh alla length]. apply le_n_S. induction tw as [|c tw IHt]; [cbn; lia|]. inversion IH; subst. cbn [fold_right flat_map]. rewrite app_length. specialize (IHt H2). lia.
Qed.
Lemma load_spec : forall g fuel h, holds h g -> (gh g <= fuel)%nat -> load fuel h (word_of g) = Ok (erase g).
Proof.
  induction g as [s ka k v|s i b aa tw IH] using gnode_ind2; intros fuel h H L.
  - cbn [gh] in L. destruct fuel as [|fuel]; [lia|]. cbn [load word_of]. unfold h_key. cbn [holds] in H. rewrite H. auto.
  - cbn [gh] in L. destruct fuel as [|fuel]; [lia|]. apply holds_B in H. destruct H as (A & N & F). cbn [load word_of]. unfold h_arr. rewrite A. cbn [rbind erase].
    assert (X : forall tw, Forall (fun g => forall fuel h, holds h g -> (gh g <= fuel)%nat -> load fuel h (word_of g) = Ok (erase g)) tw -> Forall (holds h) tw -> (fold_right (fun c n => Nat.max (gh c) n) 0 tw <= fuel)%nat ->
      forall cs, map c_w cs = map word_of tw -> map_res (fun c => load fuel h (c_w c)) cs = Ok (map erase tw)).
    { clear. induction tw as [|c tw IHt]; intros IH F L cs E; destruct cs as [|d cs]; try discriminate; [auto|]. cbn [map] in E. injection E as E1 E2. apply Forall_cons_iff in IH. destruct IH as [IH1 IH2]. apply Forall_cons_iff in F. destruct F as [F1 F2]. cbn [fold_right] in L. cbn [map_res map]. rewrite E1. rewrite IH1 by (auto; lia). cbn [rbind].
      rewrite (IHt IH2 F2) by (auto; lia). auto. }
    rewrite (X tw IH F); [auto|lia|]. destruct tw; [auto|]. cbn [cells map c_w]. f_equal. rewrite map_map. cbn [c_w]. rewrite map_id. auto.
Qed.
Lemma addr_bound : forall l n, NoDup l -> (forall a, In a l -> 0 < a < n) -> (length l <= Z.to_nat n)%nat.
Proof.
  intros l n N B. assert (I : incl l (map Z.of_nat (seq 0 (Z.to_nat n)))). { intros a Ha. apply B in Ha. apply in_map_iff. exists (Z.to_nat a). split; [lia|]. apply in_seq. lia. }
  pose proof (NoDup_incl_length N I) as H. rewrite map_length, seq_length in H. auto.
Qed.
Lemma inv_bound : forall h go g, inv h go (Some g) -> (gh g <= Z.to_nat (h_next h))%nat.
Proof.
  intros h go g I. etransitivity; [apply gh_alla|]. apply addr_bound.
  - eapply nd_perm; [symmetry; apply alla_split|]. pose proof (i_nd _ _ _ I) as D. apply nd_app in D. apply D.
  - intros a Ha. apply (i_rng _ _ _ I). eapply holds_live; [|exact Ha]. apply (i_hn _ _ _ I).
Qed.
(** the trie struct of a tree *)
Definition trep (t : htrie) (o : option gnode) : Prop :=
  match o with None => ht_weight t = 0 | Some g => ht_root t = mkc false (word_of g) /\ ht_weight t <> 0 end.
Definition tree (t : htrie) (o : option gnode) : trie :=
  match o with None => mkt empty_root 0 | Some g => mkt (erase g) (ht_weight t) end.
Lemma hload_spec : forall h go gn t, inv h go gn -> trep t gn -> hload h t = Ok (tree t gn).
Proof.
  intros h go [g|] t I T; unfold hload; cbn [trep tree] in *.
  - destruct T as [-> T]. replace (ht_weight t =? 0) with false by lia. cbn [c_w]. rewrite load_spec; [auto|apply (i_hn _ _ _ I)|]. pose proof (inv_bound _ _ _ I). unfold depth. lia.
  - rewrite T. auto.
Qed.

(** *** stacks of TrieModel and contexts *)
Fixpoint fstack (fs : list frame) (g : gnode) : stack :=
  match fs with
  | [] => [(0, erase g)]
  | f :: fs => (zlen (f_l f), erase g) :: fstack fs (GB false (f_i f) (f_b f) (f_a f) (f_l f ++ g :: f_r f))
  end.
Lemma fpath_cons : forall f fs, fpath (f :: fs) = fpath fs ++ [zlen (f_l f)].
Proof. intros. unfold fpath. cbn. auto. Qed.
Lemma chain_fill : forall fs g st, chain (erase (fill fs g)) st -> spath st = fpath fs -> st = fstack fs g.
Proof.
  induction fs as [|f fs IH]; intros g st C P.
  - inversion C as [E|j i b tw c ci up C' G E]; subst; [auto|]. change (spath ((ci, c) :: (j, Branch i b tw) :: up)) with (spath ((j, Branch i b tw) :: up) ++ [ci]) in P. unfold fpath in P. cbn [map rev] in P. apply app_eq_nil in P. destruct P; discriminate.
  - rewrite fpath_cons in P. inversion C as [E|j i b tw c ci up C' G E]; subst; [cbn [spath] in P; symmetry in P; apply app_eq_nil in P; destruct P; discriminate|].
    change (spath ((ci, c) :: (j, Branch i b tw) :: up)) with (spath ((j, Branch i b tw) :: up) ++ [ci]) in P. apply app_inj_tail in P. destruct P as [P ->]. cbn [fill] in C'. apply IH in C'; [|auto]. rewrite C'. cbn [fstack]. f_equal. f_equal.
    assert (Branch i b tw = erase (GB false (f_i f) (f_b f) (f_a f) (f_l f ++ g :: f_r f))) as E1 by (destruct fs; cbn [fstack] in C'; inversion C'; auto). cbn [erase] in E1. inversion E1; subst tw. rewrite map_app in G. cbn [map] in G.
    rewrite <- (zlen_map erase (f_l f)), zget_mid in G. congruence.
Qed.
Lemma plug_fill : forall fs g g', plug (fstack fs g) (erase g') = Ok (erase (fill fs g')).
Proof.
  induction fs as [|f fs IH]; intros g g'; [auto|]. cbn [fstack fill]. specialize (IH (GB false (f_i f) (f_b f) (f_a f) (f_l f ++ g :: f_r f)) (GB false (f_i f) (f_b f) (f_a f) (f_l f ++ g' :: f_r f))).
  rewrite <- IH. destruct fs as [|f2 fs]; cbn [fstack plug erase]; rewrite !map_app; cbn [map]; rewrite <- (zlen_map erase (f_l f)), zset_mid; auto.
Qed.
