(** Whole rounds, and every operation *)
From Verif Require Import Base FdsetModel FdsetSpec FdsetProofs FdsetProofs2 FdsetProofs3.
From Coq Require Import Permutation.

Lemma kget_slot m s w fd i ev : inv m s w -> kget (ker s) fd = Some (i, ev) ->
  exists x, nth_error (slots s) i = Some x /\ s_fd x = fd.
Proof.
  intros I HK. pose proof (inv_kern _ _ _ I _ _ HK) as W. destruct (w fd) as [e|] eqn:We; [|congruence].
  destruct (inv_world _ _ _ I _ _ We) as (j & x & Hj & Ex).
  destruct (inv_slots _ _ _ I _ _ Hj) as (ev' & _ & K' & _). rewrite Ex in K'. rewrite HK in K'. injection K' as -> ->. eauto.
Qed.
Lemma report_in k ready i r : In (i, r) (report k ready) -> exists fd ev, In (fd, r) ready /\ kget k fd = Some (i, ev).
Proof.
  unfold report. rewrite in_flat_map. intros ((fd & q) & Hin & H). simpl in H.
  destruct (kget k fd) as [[j ev]|] eqn:E; [|destruct H]. destruct H as [H|[]]. injection H as -> ->. eauto.
Qed.
Lemma report_nodup m s w ready : inv m s w -> NoDup (map fst ready) -> NoDup (map fst (report (ker s) ready)).
Proof.
  intros I. induction ready as [|[fd r] l IH]; simpl; intros ND; [constructor|]. inversion ND as [|? ? NI ND' E]; subst.
  destruct (kget (ker s) fd) as [[i ev]|] eqn:EK; simpl; [|exact (IH ND')]. constructor; [|exact (IH ND')].
  intros Hin. apply in_map_iff in Hin. destruct Hin as ((j & q) & Ej & Hin). simpl in Ej. subst j.
  apply report_in in Hin. destruct Hin as (fd' & ev' & Hin & HK').
  destruct (kget_slot _ _ _ _ _ _ I EK) as (x & Hx & Ex). destruct (kget_slot _ _ _ _ _ _ I HK') as (y & Hy & Ey).
  rewrite Hx in Hy. injection Hy as <-. apply NI. apply in_map_iff. exists (fd', q). split; [simpl; congruence|exact Hin].
Qed.
Lemma dels_due m s w off ready : inv m s w ->
  due (fd_at s) w off ready (dels (slots s) off (report (ker s) ready)).
Proof.
  intros I. split.
  - exists (fun p => match kget (ker s) (fst p) with Some (i, _) => (off <=? i)%nat | None => false end). split.
    + induction ready as [|[fd r] l IH]; [reflexivity|]. simpl. destruct (kget (ker s) fd) as [[i ev]|] eqn:EK; [|exact IH].
      simpl. destruct (kget_slot _ _ _ _ _ _ I EK) as (x & Hx & Ex). rewrite Hx.
      destruct (i <? off)%nat eqn:Eo.
      * apply Nat.ltb_lt in Eo. assert ((off <=? i)%nat = false) as -> by (apply Nat.leb_gt; lia). exact IH.
      * apply Nat.ltb_ge in Eo. assert ((off <=? i)%nat = true) as -> by (apply Nat.leb_le; lia). simpl. rewrite Ex. f_equal. exact IH.
    + intros fd r _. simpl. split.
      * destruct (kget (ker s) fd) as [[i ev]|] eqn:EK; [|discriminate]. intros Ho. apply Nat.leb_le in Ho. exists i.
        destruct (kget_slot _ _ _ _ _ _ I EK) as (x & Hx & Ex). unfold fd_at. rewrite Hx. simpl. split; [congruence|exact Ho].
      * intros (i & Hi & Ho). unfold fd_at in Hi. destruct (nth_error (slots s) i) as [x|] eqn:Hx; [|discriminate].
        simpl in Hi. injection Hi as <-. destruct (inv_slots _ _ _ I _ _ Hx) as (ev & _ & -> & _). apply Nat.leb_le. exact Ho.
  - rewrite Forall_forall. intros d Hd. unfold dels in Hd. apply in_flat_map in Hd. destruct Hd as ((i & r) & Hin & Hd).
    simpl in Hd. destruct (i <? off)%nat; [destruct Hd|]. destruct (nth_error (slots s) i) as [x|] eqn:Hx; [|destruct Hd].
    destruct Hd as [<-|[]]. simpl. split; [unfold fd_at; rewrite Hx; reflexivity|].
    destruct (inv_slots _ _ _ I _ _ Hx) as (ev & _ & _ & Wx & _). eexists. split; [exact Wx|]. split; reflexivity.
Qed.
Lemma slots_nodup m s w : inv m s w -> NoDup (map s_fd (slots s)).
Proof.
  intros I. apply NoDup_nth_error. intros i j Li E. rewrite map_length in Li. rewrite !nth_error_map in E.
  destruct (nth_error (slots s) i) as [x|] eqn:Hx; [|apply nth_error_None in Hx; lia].
  destruct (nth_error (slots s) j) as [y|] eqn:Hy; [|discriminate]. simpl in E.
  apply (inv_inj _ _ _ _ _ _ _ I Hx Hy). congruence.
Qed.
Lemma filter_map_nodup {A B} (f : A -> B) p (l : list A) : NoDup (map f l) -> NoDup (map f (filter p l)).
Proof.
  induction l as [|x l IH]; simpl; intros ND; [constructor|]. inversion ND as [|? ? NI ND' E]; subst.
  destruct (p x); [|exact (IH ND')]. simpl. constructor; [|exact (IH ND')]. intros Hin. apply NI.
  apply in_map_iff in Hin. destruct Hin as (y & Ey & Hy). apply in_map_iff. exists y. split; [exact Ey|].
  apply filter_In in Hy. tauto.
Qed.
Lemma drop_perm w a b x : Permutation a b -> drop w a x = drop w b x.
Proof.
  intros P. unfold drop. replace (existsb (Z.eqb x) b) with (existsb (Z.eqb x) a); [reflexivity|].
  apply Bool.eq_iff_eq_true. pose proof (marks_in a x) as A1. pose proof (marks_in b x) as B1. unfold marks in A1, B1.
  rewrite A1, B1. split; apply Permutation_in; [exact P|symmetry; exact P].
Qed.

Lemma round_inv s w now off ready h : inv unmarked s w -> op_ok s w (ORound now off ready h) ->
  exists s' l, round now off ready h s = Ok (s', l) /\ due (fd_at s) w off ready l /\
    inv unmarked s' (round_effect now h l w) /\
    Permutation (closed s') (closed s ++ map d_fd (filter (fun d => snd (h d)) l)) /\
    (forall k, (k <= count s)%nat ->
       (forall j fd, (j < k)%nat -> fd_at s j = Some fd -> ~ In fd (map d_fd (filter (fun d => snd (h d)) l))) ->
       forall j, (j < k)%nat -> fd_at s' j = fd_at s j).
Proof.
  intros I (Hn & ND & HO). pose proof (dels_due _ _ _ off ready I) as DU. destruct (HO _ DU) as (HA & HF).
  unfold round, fdset_poll. set (P := report (ker s) ready) in *.
  cbn [i_pending].
  assert (length (skip off P) <= length P)%nat as LS.
  { generalize P. intros Q. induction Q as [|[i r] Q IH]; simpl; [lia|]. destruct (i <? off)%nat; simpl; lia. }
  assert (forall fuel s0 it tr X, (length (i_pending it) < fuel)%nat -> serve (S (length P) + fuel) now h s0 it tr = Ok X ->
            serve fuel now h s0 it tr = Ok X) as SHORT.
  { assert (forall off l, (length (skip off l) <= length l)%nat) as LK.
    { intros o Q. induction Q as [|[i r] Q IH]; simpl; [lia|]. destruct (i <? o)%nat; simpl; lia. }
    intros fuel. generalize (S (length P)). intros extra. induction fuel as [|fuel IH]; intros s0 it tr X HL; [lia|].
    rewrite Nat.add_succ_r. cbn [serve]. destruct (i_pending it) as [|[i r] Q] eqn:EP; [auto|].
    destruct (nth_error (slots s0) i) as [x|]; [|auto].
    destruct (do_acts now i s0 _) as [s1| | |]; cbn [rbind]; auto.
    destruct (snd (h _)).
    - unfold it_remove. destruct (nth_error (slots s1) i); cbn [rbind]; auto. apply IH. unfold it_next. simpl. rewrite EP. simpl.
      simpl in HL. pose proof (LK (i_offset it) Q). lia.
    - cbn [rbind]. apply IH. unfold it_next. simpl. rewrite EP. simpl. simpl in HL. pose proof (LK (i_offset it) Q). lia. }
  destruct (serve_inv now h off Hn P (S (length P) + S (length (skip off P))) s w [] []) as (s1 & it1 & cl & E & Ed & Ecl & I1 & NDc & Wc & C1 & N1 & P1).
  - lia.
  - exact I.
  - constructor.
  - intros f [].
  - exact (report_nodup _ _ _ _ I ND).
  - intros i r Hin. apply report_in in Hin. destruct Hin as (fd & ev & _ & HK).
    destruct (kget_slot _ _ _ _ _ _ I HK) as (x & Hx & _). exists x. split; [exact Hx|]. intros [].
  - exact HA.
  - exact HF.
  - apply SHORT in E; [|simpl; lia]. cbn [length] in E. rewrite E. cbn [rbind]. simpl in Ecl.
    set (D := dels (slots s) off P) in *. simpl ([] ++ D).
    assert (Permutation (marked (marks cl) (firstn (count s1) (slots s1))) cl) as PM.
    { unfold count. rewrite firstn_all. apply NoDup_Permutation.
      - apply filter_map_nodup. exact (slots_nodup _ _ _ I1).
      - exact NDc.
      - intros f. unfold marked. rewrite in_map_iff. split.
        + intros (x & Ex & Hin). apply filter_In in Hin. destruct Hin as (_ & Hm). apply marks_in in Hm. congruence.
        + intros Hin. pose proof (Wc f Hin) as Wf. destruct (fold_left (event_effect now h) D w f) as [e|] eqn:We; [|congruence].
          destruct (inv_world _ _ _ I1 _ _ We) as (j & x & Hj & Ex). exists x. split; [exact Ex|]. apply filter_In. split.
          * eapply nth_error_In; exact Hj.
          * apply marks_in. congruence. }
    destruct (commit_inv (marks cl) (count s1) s1 (fold_left (event_effect now h) D w) (i_dirty it1)) as (s2 & cl2 & E2 & I2 & C2 & P2 & K2).
    + lia.
    + exact I1.
    + intros j x Lj Hj. apply nth_some_lt in Hj. unfold count in Lj. lia.
    + rewrite Ed. symmetry. apply Permutation_length. exact PM.
    + exists s2, D. unfold it_commit. rewrite E2. cbn [rbind]. simpl.
      assert (Permutation cl2 cl) as PC by (transitivity (marked (marks cl) (firstn (count s1) (slots s1))); assumption).
      split; [reflexivity|]. split; [exact DU|]. split.
      { eapply inv_ext; [exact I2|]. intros x. unfold round_effect. rewrite <- Ecl. apply drop_perm. symmetry. exact PC. }
      split.
      { rewrite C2, C1. rewrite <- Ecl. apply Permutation_app_head. exact PC. }
      intros k Lk HK j Lj. transitivity (fd_at s1 j); [|apply P1; lia].
      unfold fd_at. rewrite (K2 k); [reflexivity| |exact Lj|lia].
      intros q x Lq Hq. destruct (marks cl (s_fd x)) eqn:EM; [|reflexivity]. exfalso. apply marks_in in EM.
      apply (HK q (s_fd x)); [exact Lq| |rewrite <- Ecl; exact EM]. rewrite <- P1 by lia. unfold fd_at. rewrite Hq. reflexivity.
Qed.

Lemma step_inv s w o : inv unmarked s w -> op_ok s w o ->
  exists s' v w', step o s = Ok (s', v) /\ effect s w o w' v /\ inv unmarked s' w' /\
    Permutation (closed s') (closed s ++ closes s o v) /\
    (forall k, (k <= count s)%nat -> (forall j fd, (j < k)%nat -> fd_at s j = Some fd -> ~ In fd (closes s o v)) ->
       forall j, (j < k)%nat -> fd_at s' j = fd_at s j).
Proof.
  intros I HO. destruct o as [fd ev ctx mem room|idx|idx interval now|idx v|now cb|now off ready h]; unfold step.
  - destruct HO as (Hok & ->). destruct (inv_add unmarked s w fd ev ctx mem I Hok eq_refl) as [(r & E & Hr & _)|(s' & E & Es & Ec & I')]; rewrite E.
    + exists s, (SCode r), w. split; [reflexivity|]. split; [right; split; [exact Hr|reflexivity]|]. split; [exact I|].
      simpl. rewrite app_nil_r. split; [reflexivity|]. reflexivity.
    + eexists s', _, _. split; [reflexivity|]. split; [left; split; [lia|reflexivity]|]. split; [exact I'|].
      simpl. rewrite app_nil_r, Ec. split; [reflexivity|]. intros k Lk _ j Lj. unfold fd_at. rewrite Es, nth_error_app1; [reflexivity|unfold count in Lk; lia].
  - destruct (nth_error (slots s) idx) as [x|] eqn:Hx.
    + destruct (inv_remove _ _ _ _ _ I Hx) as (s' & E & I' & C' & N' & P'). { intros y _. right. reflexivity. }
      rewrite E. eexists s', _, _. split; [reflexivity|]. unfold effect, closes.
      assert (fd_at s idx = Some (s_fd x)) as EA by (unfold fd_at; rewrite Hx; reflexivity). rewrite EA.
      split; [split; [reflexivity|reflexivity]|]. split; [exact I'|]. split; [rewrite C'; reflexivity|].
      intros k Lk HK j Lj.
      assert (k <= idx)%nat as Lki.
      { destruct (Nat.le_gt_cases k idx); [assumption|]. exfalso. apply (HK idx (s_fd x)); [lia|exact EA|left; reflexivity]. }
      pose proof (nth_some_lt _ _ _ Hx) as Li. fold (count s) in Li. unfold fd_at. rewrite P' by lia.
      assert ((j =? idx)%nat = false) as -> by (apply Nat.eqb_neq; lia). reflexivity.
    + unfold fdset_remove. rewrite Hx. exists s, (SCode KNOT_EINVAL), w. split; [reflexivity|]. unfold effect, closes, fd_at. rewrite Hx. simpl.
      split; [split; reflexivity|]. split; [exact I|]. rewrite app_nil_r. split; reflexivity.
  - simpl in HO. destruct (nth_error (slots s) idx) as [x|] eqn:Hx.
    + destruct (inv_watch _ _ _ _ _ interval now I HO Hx) as (e & He & E & I'). rewrite E.
      eexists _, _, _. split; [reflexivity|]. unfold effect, closes.
      assert (fd_at s idx = Some (s_fd x)) as EA by (unfold fd_at; rewrite Hx; reflexivity). rewrite EA.
      split; [split; [reflexivity|]; exists e; split; [exact He|reflexivity]|]. split; [exact I'|].
      unfold fdset_set_watchdog. rewrite Hx. simpl. rewrite app_nil_r. split; [reflexivity|].
      intros k Lk _ j Lj. unfold fd_at. simpl. rewrite nth_put by (eapply nth_some_lt; exact Hx).
      destruct (j =? idx)%nat eqn:Ej; [|reflexivity]. apply Nat.eqb_eq in Ej. subst j. rewrite Hx. reflexivity.
    + unfold fdset_set_watchdog. rewrite Hx. exists s, (SCode KNOT_EINVAL), w. split; [reflexivity|]. unfold effect, closes, fd_at. rewrite Hx. simpl.
      split; [split; reflexivity|]. split; [exact I|]. rewrite app_nil_r. split; reflexivity.
  - simpl in HO. destruct (nth_error (slots s) idx) as [x|] eqn:Hx; [|apply nth_error_None in Hx; unfold count in HO; lia].
    destruct (inv_ctx2 _ _ _ _ _ v I Hx) as (e & s' & He & E & Es & I'). rewrite E. cbn [rbind].
    eexists _, _, _. split; [reflexivity|]. unfold effect, closes.
    assert (fd_at s idx = Some (s_fd x)) as EA by (unfold fd_at; rewrite Hx; reflexivity). rewrite EA.
    split; [exists e; split; [exact He|reflexivity]|]. split; [exact I'|]. subst s'. simpl. rewrite app_nil_r. split; [reflexivity|].
    intros k Lk _ j Lj. unfold fd_at. simpl. rewrite nth_put by (eapply nth_some_lt; exact Hx).
    destruct (j =? idx)%nat eqn:Ej; [|reflexivity]. apply Nat.eqb_eq in Ej. subst j. rewrite Hx. reflexivity.
  - unfold fdset_sweep.
    destruct (sweep_inv (S (count s)) now cb w s 0 [] []) as (s' & l & E & I' & ND & HI & (more & Hm & Hcl) & HP).
    + lia.
    + eapply inv_ext; [exact I|]. reflexivity.
    + intros fd [].
    + reflexivity.
    + constructor.
    + intros fd [].
    + intros j x Lj. lia.
    + intros j x _ _ [].
    + rewrite E. cbn [rbind]. simpl in Hm. subst more.
      eexists s', _, (fun fd => match w fd with Some e => if expired now e && cb fd then None else Some e | None => None end).
      split; [reflexivity|]. split; [split; [exact ND|]; split; [exact HI|reflexivity]|]. split.
      { eapply inv_ext; [exact I'|]. intros fd. unfold drop.
        destruct (existsb (Z.eqb fd) (filter cb l)) eqn:EX.
        - pose proof (marks_in (filter cb l) fd) as MI. unfold marks in MI. apply MI in EX. apply filter_In in EX. destruct EX as (Hin & Hcb).
          apply HI in Hin. destruct Hin as (e & -> & ->). rewrite Hcb. reflexivity.
        - destruct (w fd) as [e|] eqn:We; [|reflexivity]. destruct (expired now e && cb fd) eqn:EE; [|reflexivity].
          apply Bool.andb_true_iff in EE. destruct EE as (E1 & E2).
          assert (existsb (Z.eqb fd) (filter cb l) = true); [|congruence].
          pose proof (marks_in (filter cb l) fd) as MI. unfold marks in MI. apply MI. apply filter_In. split; [|exact E2].
          apply HI. exists e. split; assumption. }
      simpl. rewrite Hcl. split; [reflexivity|]. intros k Lk HK j Lj. unfold fd_at. apply (HP k); [|exact Lj|lia].
      intros q x Lq Hq. apply (HK q); [exact Lq|]. unfold fd_at. rewrite Hq. reflexivity.
  - destruct (round_inv s w now off ready h I HO) as (s' & l & E & DU & I' & PC & HK). rewrite E. cbn [rbind].
    eexists s', _, _. split; [reflexivity|]. split; [split; [exact DU|reflexivity]|]. split; [exact I'|]. split; [exact PC|exact HK].
Qed.

(** The effect determines what is known. *)
Lemma effect_unique s w o v w1 w2 : effect s w o w1 v -> effect s w o w2 v -> forall x, w1 x = w2 x.
Proof.
  destruct o as [fd ev ctx mem room|idx|idx interval now|idx c|now cb|now off ready h]; destruct v; simpl; try tauto.
  - intros [(A & B)|(A & B)] [(C & D)|(C & D)] x; try lia; rewrite B, D; reflexivity.
  - destruct (fd_at s idx); intros (A & B) (C & D) x; rewrite B, D; reflexivity.
  - destruct (fd_at s idx).
    + intros (A & e1 & B & C) (A' & e2 & B' & C') x. rewrite C, C'. congruence.
    + intros (A & B) (C & D) x. rewrite B, D. reflexivity.
  - destruct (fd_at s idx); [|tauto]. intros (e1 & B & C) (e2 & B' & C') x. rewrite C, C'. congruence.
  - intros (_ & _ & A) (_ & _ & B) x. rewrite A, B. reflexivity.
  - intros (_ & A) (_ & B) x. rewrite A, B. reflexivity.
Qed.
Lemma history_inv n l s w : history n l s w -> inv unmarked s w.
Proof.
  induction 1 as [|l s w o s' v w' H IH HO HS HE]; [apply inv_init|].
  destruct (step_inv _ _ _ IH HO) as (s1 & v1 & w1 & E1 & F1 & I1 & _). rewrite HS in E1. injection E1 as <- <-.
  eapply inv_ext; [exact I1|]. exact (effect_unique _ _ _ _ _ _ HE F1).
Qed.
