(** Sweeping, and the removal of marked entries *)
From Verif Require Import Base FdsetModel FdsetSpec FdsetProofs.
From Coq Require Import Permutation.

Definition unmarked : Z -> bool := fun _ => false.
Definition late (now : Z) (x : slot) : bool := (s_timeout x >? 0) && (s_timeout x <=? now).
Lemma late_expired m k w i x now e : slot_ok m k w i x -> w (s_fd x) = Some e -> expired now e = late now x.
Proof.
  intros (ev & _ & _ & Hw & _) He. rewrite Hw in He. injection He as <-. unfold expired, late, dl. simpl.
  destruct (s_timeout x >? 0); reflexivity.
Qed.

(** [gone] are the descriptors removed so far, [calls] those asked about, from the world [w0]. *)
Lemma sweep_inv fuel now cb w0 : forall s idx calls gone,
  (count s - idx < fuel)%nat ->
  inv unmarked s (drop w0 gone) ->
  (forall fd, In fd gone -> In fd calls) -> gone = filter cb calls -> NoDup calls ->
  (forall fd, In fd calls -> exists e, w0 fd = Some e /\ expired now e = true) ->
  (forall j x, (j < idx)%nat -> nth_error (slots s) j = Some x -> late now x = true -> In (s_fd x) calls) ->
  (forall j x, (idx <= j)%nat -> nth_error (slots s) j = Some x -> ~ In (s_fd x) calls) ->
  exists s' calls', sweep_loop fuel now cb s idx calls = Ok (s', calls') /\
    inv unmarked s' (drop w0 (filter cb calls')) /\ NoDup calls' /\
    (forall fd, In fd calls' <-> exists e, w0 fd = Some e /\ expired now e = true) /\
    (exists more, calls' = calls ++ more /\ closed s' = closed s ++ filter cb more) /\
    (forall k, (forall j x, (j < k)%nat -> nth_error (slots s) j = Some x -> ~ In (s_fd x) (filter cb calls')) ->
       forall j, (j < k)%nat -> (j < count s)%nat -> option_map s_fd (nth_error (slots s') j) = option_map s_fd (nth_error (slots s) j)).
Proof.
  induction fuel as [|fuel IH]; intros s idx calls gone HF I G1 G2 ND HC H1 H2; [lia|].
  simpl. destruct (nth_error (slots s) idx) as [x|] eqn:Hx.
  - pose proof (nth_some_lt _ _ _ Hx) as Li. fold (count s) in Li.
    pose proof (inv_slots _ _ _ I _ _ Hx) as OK. pose proof OK as (ev & _ & _ & Wx & _).
    assert (~ In (s_fd x) calls) as NC by (apply (H2 idx); [lia|assumption]).
    assert (drop w0 gone (s_fd x) = w0 (s_fd x)) as WG.
    { unfold drop. destruct (existsb (Z.eqb (s_fd x)) gone) eqn:E; [|reflexivity].
      apply existsb_exists in E. destruct E as (f & Hf & Ef). exfalso. apply NC. apply G1.
      replace (s_fd x) with f by lia. exact Hf. }
    destruct ((s_timeout x >? 0) && (s_timeout x <=? now)) eqn:EL.
    + fold (late now x) in EL.
      assert (exists e, w0 (s_fd x) = Some e /\ expired now e = true) as HE.
      { eexists. split; [rewrite <- WG; exact Wx|]. rewrite (late_expired _ _ _ _ _ now _ OK Wx). exact EL. }
      assert (NoDup (calls ++ [s_fd x])) as ND'.
      { apply Permutation_NoDup with (l := s_fd x :: calls); [apply Permutation_cons_append|]. constructor; assumption. }
      assert (forall fd, In fd (calls ++ [s_fd x]) -> exists e, w0 fd = Some e /\ expired now e = true) as HC'.
      { intros fd Hin. apply in_app_or in Hin. destruct Hin as [Hin|[<-|[]]]; auto. }
      destruct (cb (s_fd x)) eqn:EC.
      * destruct (inv_remove _ _ _ _ _ I Hx) as (s1 & R & I1 & C1 & N1 & P1). { intros y Hy. right. reflexivity. }
        rewrite R. simpl.
        destruct (IH s1 idx (calls ++ [s_fd x]) (gone ++ [s_fd x])) as (s' & calls' & E & I' & ND2 & HI & (more & Hm & Hcl) & HP).
        -- rewrite N1. lia.
        -- eapply inv_ext; [exact I1|]. intros f. unfold upd, drop. rewrite existsb_app. simpl.
           destruct (f =? s_fd x) eqn:E; simpl; [rewrite Bool.orb_true_r; reflexivity|]. rewrite !Bool.orb_false_r. reflexivity.
        -- intros fd Hin. apply in_app_or in Hin. apply in_or_app. destruct Hin as [Hin|Hin]; [left; auto|right; exact Hin].
        -- rewrite filter_app. simpl. rewrite EC. rewrite <- G2. reflexivity.
        -- exact ND'.
        -- exact HC'.
        -- intros j y Lj Hy HL. apply in_or_app. left. apply (H1 j); [assumption| |assumption].
           rewrite P1 in Hy by lia. assert ((j =? idx)%nat = false) as Ej by (apply Nat.eqb_neq; lia). rewrite Ej in Hy. exact Hy.
        -- intros j y Lj Hy Hin. pose proof (nth_some_lt _ _ _ Hy) as Ly. fold (count s1) in Ly.
           rewrite P1 in Hy by lia. apply in_app_or in Hin. destruct (j =? idx)%nat eqn:Ej.
           ++ apply Nat.eqb_eq in Ej. destruct Hin as [Hin|[Ef|[]]].
              ** apply (H2 (count s - 1)%nat y); [lia|exact Hy|exact Hin].
              ** pose proof (inv_inj _ _ _ _ _ _ _ I Hy Hx (eq_sym Ef)). lia.
           ++ apply Nat.eqb_neq in Ej. destruct Hin as [Hin|[Ef|[]]].
              ** apply (H2 j y); [lia|exact Hy|exact Hin].
              ** pose proof (inv_inj _ _ _ _ _ _ _ I Hy Hx (eq_sym Ef)). lia.
        -- exists s', calls'. split; [exact E|]. split; [exact I'|]. split; [exact ND2|]. split; [exact HI|]. split.
           ++ exists (s_fd x :: more). split; [rewrite Hm, <- app_assoc; reflexivity|]. rewrite Hcl, C1. simpl. rewrite EC.
              rewrite <- app_assoc. reflexivity.
           ++ intros k HK j Lj Lc.
              assert (k <= idx)%nat as Lk.
              { destruct (Nat.le_gt_cases k idx); [assumption|]. exfalso. apply (HK idx x); [lia|exact Hx|].
                apply filter_In. split; [|exact EC]. rewrite Hm. apply in_or_app. left. apply in_or_app. right. left. reflexivity. }
              assert (forall q, (q < k)%nat -> (q < count s - 1)%nat -> nth_error (slots s1) q = nth_error (slots s) q) as HQ.
              { intros q Lq Lq'. rewrite P1 by exact Lq'. assert ((q =? idx)%nat = false) as -> by (apply Nat.eqb_neq; lia). reflexivity. }
              rewrite (HP k); [rewrite HQ by lia; reflexivity| |exact Lj|lia].
              intros q y Lq Hy. pose proof (nth_some_lt _ _ _ Hy) as Ly. fold (count s1) in Ly.
              rewrite HQ in Hy by lia. apply (HK q y); assumption.
      * destruct (IH s (S idx) (calls ++ [s_fd x]) gone) as (s' & calls' & E & I' & ND2 & HI & (more & Hm & Hcl) & HP).
        -- lia.
        -- exact I.
        -- intros fd Hin. apply in_or_app. left. auto.
        -- rewrite filter_app. simpl. rewrite EC, app_nil_r. exact G2.
        -- exact ND'.
        -- exact HC'.
        -- intros j y Lj Hy HL. apply in_or_app. destruct (Nat.eq_dec j idx) as [->|].
           ++ right. left. congruence.
           ++ left. apply (H1 j); [lia|assumption|assumption].
        -- intros j y Lj Hy Hin. apply in_app_or in Hin. destruct Hin as [Hin|[Ef|[]]].
           ++ apply (H2 j y); [lia|exact Hy|exact Hin].
           ++ pose proof (inv_inj _ _ _ _ _ _ _ I Hy Hx (eq_sym Ef)). lia.
        -- exists s', calls'. split; [exact E|]. split; [exact I'|]. split; [exact ND2|]. split; [exact HI|]. split; [|exact HP].
           exists (s_fd x :: more). split; [rewrite Hm, <- app_assoc; reflexivity|]. simpl. rewrite EC. exact Hcl.
    + fold (late now x) in EL.
      destruct (IH s (S idx) calls gone) as (s' & calls' & E & R); try assumption; [lia| | |].
      * intros j y Lj Hy HL. destruct (Nat.eq_dec j idx) as [->|]; [congruence|]. apply (H1 j); [lia|assumption|assumption].
      * intros j y Lj Hy. apply (H2 j y); [lia|exact Hy].
      * exists s', calls'. split; [exact E|exact R].
  - apply nth_error_None in Hx. exists s, calls. split; [reflexivity|]. rewrite <- G2. split; [exact I|]. split; [exact ND|].
    split; [|split].
    + intros fd. split; [apply HC|]. intros (e & He & Ee).
      destruct (in_dec Z.eq_dec fd calls) as [Hin|Hn]; [exact Hin|exfalso].
      assert (drop w0 gone fd = Some e) as WG.
      { unfold drop. destruct (existsb (Z.eqb fd) gone) eqn:E2; [|exact He].
        apply existsb_exists in E2. destruct E2 as (f & Hf & Ef). exfalso. apply Hn. apply G1. replace fd with f by lia. exact Hf. }
      destruct (inv_world _ _ _ I _ _ WG) as (j & y & Hj & Ey). subst fd.
      pose proof (nth_some_lt _ _ _ Hj) as Lj.
      apply Hn. apply (H1 j y); [lia|exact Hj|]. rewrite <- (late_expired _ _ _ _ _ now _ (inv_slots _ _ _ I _ _ Hj) WG). exact Ee.
    + exists []. rewrite !app_nil_r. split; reflexivity.
    + reflexivity.
Qed.

(** Removal of what is marked *)
Definition marked (m : Z -> bool) (l : list slot) : list Z := map s_fd (filter (fun x => m (s_fd x)) l).
Lemma firstn_S {A} (l : list A) j x : nth_error l j = Some x -> firstn (S j) l = firstn j l ++ [x].
Proof.
  revert j. induction l as [|y l IH]; intros [|j] H; simpl in *; try discriminate.
  - injection H as ->. reflexivity.
  - f_equal. apply IH. exact H.
Qed.
Lemma firstn_ext {A} (l l' : list A) n : (forall j, (j < n)%nat -> nth_error l j = nth_error l' j) -> firstn n l = firstn n l'.
Proof.
  revert l l'. induction n as [|n IH]; intros l l' H; [reflexivity|].
  destruct l as [|x l], l' as [|y l']; simpl; try reflexivity.
  - pose proof (H O ltac:(lia)). discriminate.
  - pose proof (H O ltac:(lia)). discriminate.
  - pose proof (H O ltac:(lia)) as E. injection E as ->. f_equal. apply IH. intros j Hj. apply (H (S j)). lia.
Qed.
Lemma marked_snoc m l x : marked m (l ++ [x]) = marked m l ++ (if m (s_fd x) then [s_fd x] else []).
Proof. unfold marked. rewrite filter_app, map_app. simpl. destruct (m (s_fd x)); reflexivity. Qed.

Lemma commit_inv m i : forall s w dirty, (i <= count s)%nat -> inv m s w ->
  (forall j x, (i <= j)%nat -> nth_error (slots s) j = Some x -> m (s_fd x) = false) ->
  dirty = length (marked m (firstn i (slots s))) ->
  exists s' cl, commit_loop i s dirty = Ok (s', O) /\ inv unmarked s' (drop w cl) /\ closed s' = closed s ++ cl /\
    Permutation cl (marked m (firstn i (slots s))) /\
    (forall k, (forall j x, (j < k)%nat -> nth_error (slots s) j = Some x -> m (s_fd x) = false) ->
       forall j, (j < k)%nat -> (j < count s)%nat -> nth_error (slots s') j = nth_error (slots s) j).
Proof.
  assert (forall s w, inv m s w -> (forall j x, nth_error (slots s) j = Some x -> m (s_fd x) = false) -> inv unmarked s (drop w [])) as DONE.
  { intros s w I H. eapply inv_ext; [|intros x; reflexivity]. eapply inv_mark; [exact I|]. intros j x Hj. rewrite (H _ _ Hj). reflexivity. }
  induction i as [|i IH]; intros s w dirty Li I HU HD.
  - simpl in HD. subst dirty. exists s, []. simpl. split; [reflexivity|]. split.
    { apply DONE; [exact I|]. intros j x Hj. apply (HU j x); [lia|exact Hj]. }
    rewrite app_nil_r. split; [reflexivity|]. split; [reflexivity|]. reflexivity.
  - simpl commit_loop. destruct (nth_error (slots s) i) as [x|] eqn:Hx.
    2:{ apply nth_error_None in Hx. unfold count in Li. lia. }
    pose proof (inv_slots _ _ _ I _ _ Hx) as (ev & Hev & Kx & Wx & Sx).
    rewrite (firstn_S _ _ _ Hx), marked_snoc in HD.
    destruct (dirty =? 0)%nat eqn:E0.
    + apply Nat.eqb_eq in E0. rewrite E0 in HD. rewrite app_length in HD.
      assert (marked m (firstn i (slots s)) = []) as EM by (destruct (marked m (firstn i (slots s))); simpl in *; [reflexivity|lia]).
      assert (m (s_fd x) = false) as EX by (destruct (m (s_fd x)); simpl in HD; [lia|reflexivity]).
      exists s, []. rewrite E0. split; [reflexivity|]. split.
      { apply DONE; [exact I|]. intros j y Hj. destruct (Nat.le_gt_cases (S i) j) as [L|L]; [exact (HU j y L Hj)|].
        destruct (Nat.eq_dec j i) as [->|]; [congruence|].
        destruct (m (s_fd y)) eqn:EY; [|reflexivity]. exfalso.
        assert (In (s_fd y) (marked m (firstn i (slots s)))) as Hin.
        { unfold marked. apply in_map. apply filter_In. split; [|exact EY]. apply nth_error_In with (n := j).
          rewrite nth_firstn by lia. exact Hj. }
        rewrite EM in Hin. destruct Hin. }
      rewrite app_nil_r. split; [reflexivity|]. split; [|reflexivity].
      rewrite (firstn_S _ _ _ Hx), marked_snoc, EM, EX. reflexivity.
    + apply Nat.eqb_neq in E0. rewrite Sx. destruct (m (s_fd x)) eqn:EX.
      * rewrite Z.eqb_refl.
        destruct (inv_remove _ _ _ _ _ I Hx) as (s1 & R & I1 & C1 & N1 & P1).
        { intros y Hy. destruct (Nat.eq_dec i (count s - 1)) as [Ee|Ne]; [left; exact Ee|right].
          apply (HU (count s - 1)%nat y); [lia|exact Hy]. }
        rewrite R. simpl snd.
        assert (firstn i (slots s1) = firstn i (slots s)) as EF.
        { apply firstn_ext. intros j Lj. rewrite P1 by lia. assert ((j =? i)%nat = false) as -> by (apply Nat.eqb_neq; lia). reflexivity. }
        destruct (IH s1 (upd w (s_fd x) None) (dirty - 1)%nat) as (s' & cl & E & I' & Hcl & HPm & HP).
        -- rewrite N1. lia.
        -- exact I1.
        -- intros j y Lj Hy. pose proof (nth_some_lt _ _ _ Hy) as Ly. fold (count s1) in Ly. rewrite P1 in Hy by lia.
           destruct (j =? i)%nat eqn:Ej.
           ++ apply (HU (count s - 1)%nat y); [apply Nat.eqb_eq in Ej; lia|exact Hy].
           ++ apply Nat.eqb_neq in Ej. apply (HU j y); [lia|exact Hy].
        -- rewrite EF. rewrite app_length in HD. simpl in HD. lia.
        -- exists s', (s_fd x :: cl). split; [exact E|]. split.
           { eapply inv_ext; [exact I'|]. intros f. unfold drop, upd. simpl. destruct (f =? s_fd x); simpl; [|reflexivity].
             destruct (existsb (Z.eqb f) cl); reflexivity. }
           split; [rewrite Hcl, C1, <- app_assoc; reflexivity|]. split.
           { rewrite (firstn_S _ _ _ Hx), marked_snoc, EX, <- EF. transitivity (cl ++ [s_fd x]); [apply Permutation_cons_append|].
             apply Permutation_app_tail. exact HPm. }
           intros k HK j Lj Lc.
           assert (k <= i)%nat as Lk.
           { destruct (Nat.le_gt_cases k i); [assumption|]. rewrite (HK i x) in EX; [discriminate|lia|exact Hx]. }
           assert (forall q, (q < k)%nat -> (q < count s - 1)%nat -> nth_error (slots s1) q = nth_error (slots s) q) as HQ.
           { intros q Lq Lq'. rewrite P1 by exact Lq'. assert ((q =? i)%nat = false) as -> by (apply Nat.eqb_neq; lia). reflexivity. }
           rewrite (HP k); [apply HQ; lia| |exact Lj|lia].
           intros q y Lq Hy. pose proof (nth_some_lt _ _ _ Hy) as Ly. fold (count s1) in Ly.
           rewrite HQ in Hy by lia. exact (HK q y Lq Hy).
      * assert (ev =? FDSET_REMOVE_FLAG = false) as -> by (apply Z.eqb_neq; exact Hev).
        rewrite app_nil_r in HD.
        destruct (IH s w dirty) as (s' & cl & E & I' & Hcl & HPm & HP); try assumption; [lia| |].
        -- intros j y Lj Hy. destruct (Nat.eq_dec j i) as [->|]; [congruence|]. apply (HU j y); [lia|exact Hy].
        -- exists s', cl. split; [exact E|]. split; [exact I'|]. split; [exact Hcl|]. split; [|exact HP].
           rewrite (firstn_S _ _ _ Hx), marked_snoc, EX, app_nil_r. exact HPm.
Qed.
