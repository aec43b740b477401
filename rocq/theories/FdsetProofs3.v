(** A round of events *)
From Verif Require Import Base FdsetModel FdsetSpec FdsetProofs FdsetProofs2.
From Coq Require Import Permutation.

Definition fds_of (acts : list act) : list Z :=
  flat_map (fun a => match a with AAdd fd _ _ _ _ _ => [fd] | _ => [] end) acts.

Lemma act_some now fd w a f : w f <> None -> act_effect now fd w a f <> None.
Proof.
  intros H. destruct a as [i|v|g ev ctx i mem room]; simpl.
  - destruct (w fd) eqn:E; [|exact H]. unfold upd. destruct (f =? fd); [discriminate|exact H].
  - destruct (w fd) eqn:E; [|exact H]. unfold upd. destruct (f =? fd); [discriminate|exact H].
  - unfold upd. destruct (f =? g); [discriminate|exact H].
Qed.
Lemma act_none now fd w a f : w fd <> None -> w f = None -> ~ In f (fds_of [a]) -> act_effect now fd w a f = None.
Proof.
  intros H Hf Hn. assert (f <> fd) as Nf by congruence. destruct a as [i|v|g ev ctx i mem room]; simpl in *.
  - destruct (w fd) eqn:E; [|exact Hf]. unfold upd. destruct (f =? fd) eqn:E2; [lia|exact Hf].
  - destruct (w fd) eqn:E; [|exact Hf]. unfold upd. destruct (f =? fd) eqn:E2; [lia|exact Hf].
  - unfold upd. destruct (f =? g) eqn:E2; [|exact Hf]. exfalso. apply Hn. left. lia.
Qed.
Lemma acts_some now fd acts : forall w f, w f <> None -> fold_left (act_effect now fd) acts w f <> None.
Proof. induction acts as [|a acts IH]; simpl; intros w f H; [exact H|]. apply IH. apply act_some. exact H. Qed.
Lemma acts_none now fd acts : forall w f, w fd <> None -> w f = None -> ~ In f (fds_of acts) ->
  fold_left (act_effect now fd) acts w f = None.
Proof.
  induction acts as [|a acts IH]; simpl; intros w f H Hf Hn; [exact Hf|]. apply IH.
  - apply act_some. exact H.
  - apply act_none; [exact H|exact Hf|]. intros Hin. apply Hn. apply in_or_app. left. simpl in Hin. rewrite app_nil_r in Hin. exact Hin.
  - intros Hin. apply Hn. apply in_or_app. right. exact Hin.
Qed.
Lemma act_ok_keep w w' acts : (forall f, w f = None -> In f (fds_of acts) -> w' f = None) ->
  Forall (act_ok w) acts -> Forall (act_ok w') acts.
Proof.
  intros H HF. rewrite Forall_forall in *. intros a Ha. specialize (HF a Ha).
  destruct a as [i|v|g ev ctx i mem room]; simpl in *; auto. destruct HF as ((A & B & C) & D). split; [|exact D].
  split; [exact A|]. split; [|exact C]. apply H; [exact B|]. unfold fds_of. apply in_flat_map.
  eexists. split; [exact Ha|]. left. reflexivity.
Qed.

Lemma acts_inv now i acts : forall m s w x, 0 < now -> inv m s w -> nth_error (slots s) i = Some x ->
  NoDup (fds_of acts) -> Forall (act_ok w) acts -> (forall f, In f (fds_of acts) -> m f = false) ->
  exists s', do_acts now i s acts = Ok s' /\ inv m s' (fold_left (act_effect now (s_fd x)) acts w) /\
    closed s' = closed s /\ (count s <= count s')%nat /\
    (forall j, j <> i -> (j < count s)%nat -> nth_error (slots s') j = nth_error (slots s) j) /\
    (exists x', nth_error (slots s') i = Some x' /\ s_fd x' = s_fd x).
Proof.
  induction acts as [|a acts IH]; intros m s w x Hn I Hx ND HF HM.
  - exists s. simpl. repeat match goal with |- _ /\ _ => split end; auto. eauto.
  - pose proof (nth_some_lt _ _ _ Hx) as Li. fold (count s) in Li.
    inversion HF as [|a' l' Ha HF' Ea]; subst.
    assert (w (s_fd x) <> None) as WX.
    { destruct (inv_slots _ _ _ I _ _ Hx) as (ev & _ & _ & -> & _). discriminate. }
    assert (NoDup (fds_of acts) /\ (forall f, In f (fds_of [a]) -> ~ In f (fds_of acts))) as (ND' & NDa).
    { destruct a; simpl in *; try (split; [exact ND|intros f []]).
      inversion ND; subst. split; [assumption|]. intros f [<-|[]]. assumption. }
    assert (exists s1 x1, do_act now i s a = Ok s1 /\ inv m s1 (act_effect now (s_fd x) w a) /\ closed s1 = closed s /\
              (count s <= count s1)%nat /\
              (forall j, j <> i -> (j < count s)%nat -> nth_error (slots s1) j = nth_error (slots s) j) /\
              nth_error (slots s1) i = Some x1 /\ s_fd x1 = s_fd x) as (s1 & x1 & D1 & I1 & C1 & N1 & P1 & X1 & F1).
    { destruct a as [iv|v|g ev ctx iv mem room]; simpl.
      - destruct (inv_watch _ _ _ _ _ iv now I Hn Hx) as (e & He & HE & HI). rewrite He.
        unfold fdset_set_watchdog in *. rewrite Hx in *. simpl in *.
        eexists. eexists. split; [reflexivity|]. split; [exact HI|]. split; [reflexivity|].
        split; [unfold count; simpl; rewrite put_length; lia|]. split.
        { intros j Nj Lj. simpl. rewrite nth_put by exact Li. assert ((j =? i)%nat = false) as -> by (apply Nat.eqb_neq; exact Nj). reflexivity. }
        simpl. rewrite nth_put, Nat.eqb_refl by exact Li. split; reflexivity.
      - destruct (inv_ctx2 _ _ _ _ _ v I Hx) as (e & s' & He & HE & Es & HI). rewrite He, HE. subst s'.
        eexists. eexists. split; [reflexivity|]. split; [exact HI|]. split; [reflexivity|].
        split; [unfold count; simpl; rewrite put_length; lia|]. split.
        { intros j Nj Lj. simpl. rewrite nth_put by exact Li. assert ((j =? i)%nat = false) as -> by (apply Nat.eqb_neq; exact Nj). reflexivity. }
        simpl. rewrite nth_put, Nat.eqb_refl by exact Li. split; reflexivity.
      - simpl in Ha. destruct Ha as (Hok & -> & ->).
        destruct (inv_add m s w g ev ctx true I Hok) as [(r & _ & _ & Ht)|(s1 & HE & Hs1 & Hc1 & I1)].
        { apply HM. simpl. left. reflexivity. }
        { discriminate. }
        rewrite HE. assert (Z.of_nat (count s) <? 0 = false) as -> by lia. rewrite Nat2Z.id.
        assert (nth_error (slots s1) (count s) = Some (mkslot g ev ctx 0 0)) as HX.
        { rewrite Hs1, nth_error_app2 by (unfold count; lia). unfold count. rewrite Nat.sub_diag. reflexivity. }
        destruct (inv_watch _ _ _ _ _ iv now I1 Hn HX) as (e & He & _ & HI). simpl in He, HI.
        unfold upd in He. rewrite Z.eqb_refl in He. injection He as <-.
        unfold fdset_set_watchdog in *. rewrite HX in *. simpl in *.
        assert (count s < length (slots s1))%nat as L1 by (rewrite Hs1, app_length; simpl; unfold count; lia).
        eexists. exists x. split; [reflexivity|]. split.
        { eapply inv_ext; [exact HI|]. intros f. unfold upd. destruct (f =? g); reflexivity. }
        split; [exact Hc1|]. split; [unfold count; simpl; rewrite put_length, Hs1, app_length; lia|].
        assert (forall j, (j < count s)%nat -> nth_error (put (count s) (mkslot g ev ctx 0 (if iv <? 0 then 0 else now + iv)) (slots s1)) j = nth_error (slots s) j) as HJ.
        { intros j Lj. rewrite nth_put by exact L1. assert ((j =? count s)%nat = false) as -> by (apply Nat.eqb_neq; lia).
          rewrite Hs1. apply nth_error_app1. exact Lj. }
        split; [intros j _ Lj; apply HJ; exact Lj|]. split; [|reflexivity]. rewrite <- Hx. apply HJ. exact Li. }
    destruct (IH m s1 (act_effect now (s_fd x) w a) x1 Hn I1 X1 ND') as (s' & D' & I' & C' & N' & P' & X').
    + eapply act_ok_keep; [|exact HF']. intros f Hf Hin. apply act_none; [exact WX|exact Hf|].
      intros Hin2. exact (NDa f Hin2 Hin).
    + intros f Hin. apply HM. simpl. apply in_or_app. right. exact Hin.
    + exists s'. simpl. rewrite D1. simpl. split; [exact D'|]. rewrite F1 in I'. split; [exact I'|].
      split; [congruence|]. split; [lia|]. split.
      * intros j Nj Lj. rewrite P'; [apply P1; assumption|exact Nj|lia].
      * destruct X' as (x' & A & B). exists x'. split; [exact A|congruence].
Qed.

Lemma inv_markone m s w i x : inv m s w -> nth_error (slots s) i = Some x ->
  inv (fun f => (f =? s_fd x) || m f)
      (with_slots s (put i (mkslot (s_fd x) FDSET_REMOVE_FLAG (s_ctx x) (s_ctx2 x) (s_timeout x)) (slots s))) w.
Proof.
  intros I Hx. pose proof (nth_some_lt _ _ _ Hx) as Li. split; simpl.
  - unfold count. simpl. rewrite put_length. exact (inv_size _ _ _ I).
  - intros j y. rewrite nth_put by exact Li. destruct (j =? i)%nat eqn:Ej.
    + apply Nat.eqb_eq in Ej. subst j. intros Hy. injection Hy as <-.
      destruct (inv_slots _ _ _ I _ _ Hx) as (ev & A & B & C & D). exists ev. simpl. rewrite Z.eqb_refl. simpl. auto.
    + apply Nat.eqb_neq in Ej. intros Hy. destruct (inv_slots _ _ _ I _ _ Hy) as (ev & A & B & C & D). exists ev.
      assert (s_fd y =? s_fd x = false) as ->; [|simpl; auto]. apply Z.eqb_neq. intros Ef. apply Ej.
      exact (inv_inj _ _ _ _ _ _ _ I Hy Hx Ef).
  - intros f e He. destruct (inv_world _ _ _ I _ _ He) as (j & y & Hj & Ey).
    destruct (Nat.eq_dec j i) as [->|Nj].
    + exists i. eexists. rewrite nth_put, Nat.eqb_refl by exact Li. split; [reflexivity|]. simpl. congruence.
    + exists j, y. rewrite nth_put by exact Li. assert ((j =? i)%nat = false) as -> by (apply Nat.eqb_neq; exact Nj). auto.
  - exact (inv_kern _ _ _ I).
Qed.

Definition dels (l : list slot) (off : nat) (P : list (nat * Z)) : list delivery :=
  flat_map (fun p => if (fst p <? off)%nat then []
                     else match nth_error l (fst p) with
                          | Some x => [mkdel (fst p) (s_fd x) (s_ctx x) (s_ctx2 x) (snd p)]
                          | None => []
                          end) P.
Lemma dels_ext l l' off P : (forall i r, In (i, r) P -> nth_error l i = nth_error l' i) -> dels l off P = dels l' off P.
Proof.
  induction P as [|[i r] P IH]; intros H; [reflexivity|]. simpl. rewrite (H i r) by (left; reflexivity).
  rewrite IH; [reflexivity|]. intros j q Hj. apply (H j q). right. exact Hj.
Qed.
Definition marks (cl : list Z) (f : Z) : bool := existsb (Z.eqb f) cl.
Lemma marks_in cl f : marks cl f = true <-> In f cl.
Proof.
  unfold marks. rewrite existsb_exists. split; [intros (y & Hy & E)|intros H; exists f; split; [exact H|lia]].
  replace f with y by lia. exact Hy.
Qed.

Lemma nodup_app_parts {A} (a b : list A) : NoDup (a ++ b) -> NoDup a /\ NoDup b /\ (forall f, In f a -> ~ In f b).
Proof.
  induction a as [|y a IH]; simpl; intros ND.
  - split; [constructor|]. split; [exact ND|]. intros f [].
  - inversion ND as [|? ? NI ND' E]; subst. destruct (IH ND') as (A1 & A2 & A3). split; [|split; [exact A2|]].
    + constructor; [|exact A1]. intros Hin. apply NI. apply in_or_app. left. exact Hin.
    + intros f [<-|Hf]; [|exact (A3 f Hf)]. intros Hb. apply NI. apply in_or_app. right. exact Hb.
Qed.

Lemma serve_inv now h off : 0 < now -> forall P fuel s w cl tr,
  (length P < fuel)%nat -> inv (marks cl) s w -> NoDup cl -> (forall f, In f cl -> w f <> None) ->
  NoDup (map fst P) -> (forall i r, In (i, r) P -> exists x, nth_error (slots s) i = Some x /\ ~ In (s_fd x) cl) ->
  NoDup (flat_map (adds h) (dels (slots s) off P)) ->
  Forall (fun d => Forall (act_ok w) (fst (h d))) (dels (slots s) off P) ->
  exists s' it' cl', serve fuel now h s (mkiter (skip off P) off (length cl)) tr = Ok (s', it', tr ++ dels (slots s) off P) /\
    i_dirty it' = length cl' /\ cl' = cl ++ map d_fd (filter (fun d => snd (h d)) (dels (slots s) off P)) /\
    inv (marks cl') s' (fold_left (event_effect now h) (dels (slots s) off P) w) /\ NoDup cl' /\
    (forall f, In f cl' -> fold_left (event_effect now h) (dels (slots s) off P) w f <> None) /\
    closed s' = closed s /\ (count s <= count s')%nat /\
    (forall j, (j < count s)%nat -> fd_at s' j = fd_at s j).
Proof.
  intros Hn. induction P as [|[i r] P IH]; intros fuel s w cl tr HF I NDc Wc NDP HP HA HO.
  - destruct fuel as [|fuel]; [simpl in HF; lia|]. simpl. exists s, (mkiter [] off (length cl)), cl.
    rewrite !app_nil_r. repeat match goal with |- _ /\ _ => split end; auto.
  - simpl in NDP. inversion NDP as [|? ? NI NDP' EP]; subst. clear NDP.
    destruct (i <? off)%nat eqn:Eo.
    + assert (skip off ((i, r) :: P) = skip off P) as -> by (simpl; rewrite Eo; reflexivity).
      assert (dels (slots s) off ((i, r) :: P) = dels (slots s) off P) as ED by (unfold dels; simpl; rewrite Eo; reflexivity).
      rewrite ED in *. apply IH; try assumption.
      * simpl in HF. lia.
      * intros j q Hj. apply (HP j q). right. exact Hj.
    + assert (skip off ((i, r) :: P) = (i, r) :: P) as -> by (simpl; rewrite Eo; reflexivity).
      destruct (HP i r (or_introl eq_refl)) as (x & Hx & Nx).
      pose proof (nth_some_lt _ _ _ Hx) as Li. fold (count s) in Li.
      set (d := mkdel i (s_fd x) (s_ctx x) (s_ctx2 x) r).
      assert (dels (slots s) off ((i, r) :: P) = d :: dels (slots s) off P) as ED.
      { unfold dels. simpl. rewrite Eo, Hx. reflexivity. }
      rewrite ED in *. simpl in HA.
      inversion HO as [|? ? HOd HO' EO]; subst. clear HO.
      destruct (nodup_app_parts _ _ HA) as (HAd & HAr & HAx).
      assert (w (s_fd x) <> None) as WX.
      { destruct (inv_slots _ _ _ I _ _ Hx) as (ev & _ & _ & -> & _). discriminate. }
      destruct (acts_inv now i (fst (h d)) (marks cl) s w x Hn I Hx HAd HOd) as (s1 & D1 & I1 & C1 & N1 & P1 & (x1 & X1 & F1)).
      { intros f Hin. destruct (marks cl f) eqn:EM; [|reflexivity]. exfalso. apply marks_in in EM. apply (Wc f EM).
        unfold fds_of in Hin. apply in_flat_map in Hin. destruct Hin as (a & Ha & Hin). rewrite Forall_forall in HOd.
        specialize (HOd a Ha). destruct a; simpl in Hin; try tauto. destruct Hin as [<-|[]]. simpl in HOd.
        destruct HOd as ((_ & B & _) & _). exact B. }
      destruct fuel as [|fuel]; [simpl in HF; lia|].
      cbn [serve i_pending]. rewrite Hx. fold d. rewrite D1. cbn [rbind].
      pose proof (nth_some_lt _ _ _ X1) as Li1.
      set (w1 := event_effect now h w d).
      assert (fold_left (act_effect now (s_fd x)) (fst (h d)) w = w1) as EW by reflexivity. rewrite EW in I1.
      assert (forall f, w f <> None -> w1 f <> None) as W1S by (intros f Hf; apply acts_some; exact Hf).
      assert (Forall (fun d => Forall (act_ok w1) (fst (h d))) (dels (slots s) off P)) as HO1.
      { rewrite Forall_forall in HO' |- *. intros d' Hd'. eapply act_ok_keep; [|exact (HO' d' Hd')].
        intros f Hf Hin. apply acts_none; [exact WX|exact Hf|]. intros Hin2. apply (HAx f Hin2). apply in_flat_map. exists d'. split; assumption. }
      assert (forall s2 cl2, (forall j, j <> i -> nth_error (slots s2) j = nth_error (slots s1) j) ->
                (exists x2, nth_error (slots s2) i = Some x2 /\ s_fd x2 = s_fd x1) -> count s2 = count s1 -> closed s2 = closed s1 ->
                inv (marks cl2) s2 w1 -> NoDup cl2 -> (forall f, In f cl2 -> w1 f <> None) ->
                cl2 = cl ++ (if snd (h d) then [s_fd x] else []) ->
                exists s' it' cl',
                  serve fuel now h s2 (it_next (mkiter ((i, r) :: P) off (length cl2))) (tr ++ [d]) =
                    Ok (s', it', tr ++ d :: dels (slots s) off P) /\
                  i_dirty it' = length cl' /\
                  cl' = cl ++ map d_fd (filter (fun d => snd (h d)) (d :: dels (slots s) off P)) /\
                  inv (marks cl') s' (fold_left (event_effect now h) (d :: dels (slots s) off P) w) /\ NoDup cl' /\
                  (forall f, In f cl' -> fold_left (event_effect now h) (d :: dels (slots s) off P) w f <> None) /\
                  closed s' = closed s /\ (count s <= count s')%nat /\
                  (forall j, (j < count s)%nat -> fd_at s' j = fd_at s j)) as REST.
      { intros s2 cl2 HJ (x2 & X2 & F2) HC2 Hcl2 I2 ND2 W2 Ecl.
        assert (forall j q, In (j, q) P -> nth_error (slots s2) j = nth_error (slots s) j) as HE.
        { intros j q Hin. assert (j <> i) as Nj. { intros ->. apply NI. apply in_map_iff. exists (i, q). split; [reflexivity|exact Hin]. }
          rewrite HJ by exact Nj. apply P1; [exact Nj|]. destruct (HP j q (or_intror Hin)) as (y & Hy & _).
          eapply nth_some_lt; exact Hy. }
        assert (dels (slots s2) off P = dels (slots s) off P) as ED2 by (apply dels_ext; exact HE).
        destruct (IH fuel s2 w1 cl2 (tr ++ [d])) as (s' & it' & cl' & E' & Di & Ecl' & I' & ND' & W' & C' & N' & P').
        - simpl in HF. lia.
        - exact I2.
        - exact ND2.
        - exact W2.
        - exact NDP'.
        - intros j q Hin. destruct (HP j q (or_intror Hin)) as (y & Hy & Ny). exists y. rewrite (HE j q Hin). split; [exact Hy|].
          rewrite Ecl. intros Hin2. apply in_app_or in Hin2. destruct Hin2 as [Hin2|Hin2]; [exact (Ny Hin2)|].
          destruct (snd (h d)); [|exact Hin2]. destruct Hin2 as [Ef|[]].
          pose proof (inv_inj _ _ _ _ _ _ _ I Hx Hy Ef) as Eij. apply NI. apply in_map_iff. exists (j, q). split; [simpl; congruence|exact Hin].
        - rewrite ED2. exact HAr.
        - rewrite ED2. exact HO1.
        - rewrite ED2 in *. exists s', it', cl'.
          split; [unfold it_next; simpl; rewrite E', <- app_assoc; reflexivity|]. split; [exact Di|]. split.
          { rewrite Ecl', Ecl. cbn [filter]. destruct (snd (h d)); cbn [map]; rewrite <- app_assoc; reflexivity. }
          split; [exact I'|]. split; [exact ND'|]. split; [exact W'|]. split; [congruence|]. split; [lia|].
          intros j Lj. rewrite P' by lia. unfold fd_at. destruct (Nat.eq_dec j i) as [->|Nj].
          + rewrite X2, Hx. simpl. congruence.
          + rewrite HJ by exact Nj. rewrite P1 by assumption. reflexivity. }
      destruct (snd (h d)) eqn:EC.
      * unfold it_remove. rewrite X1. cbn [rbind i_pending i_offset i_dirty].
        match goal with |- context[serve fuel now h ?S2 _ _] => set (s2 := S2) in * end.
        assert (S (length cl) = length (cl ++ [s_fd x])) as -> by (rewrite app_length; simpl; lia).
        apply (REST s2 (cl ++ [s_fd x])).
        -- intros j Nj. unfold s2. simpl. rewrite nth_put by exact Li1. assert ((j =? i)%nat = false) as -> by (apply Nat.eqb_neq; exact Nj). reflexivity.
        -- eexists. unfold s2. simpl. rewrite nth_put, Nat.eqb_refl by exact Li1. split; reflexivity.
        -- unfold s2, count. simpl. apply put_length.
        -- reflexivity.
        -- eapply inv_mark; [apply (inv_markone _ _ _ _ _ I1 X1)|]. intros j y _. unfold marks. rewrite existsb_app. simpl.
           rewrite F1, Bool.orb_false_r. apply Bool.orb_comm.
        -- apply Permutation_NoDup with (l := s_fd x :: cl); [apply Permutation_cons_append|]. constructor; assumption.
        -- intros f Hin. apply in_app_or in Hin. destruct Hin as [Hin|[<-|[]]]; apply W1S; auto.
        -- reflexivity.
      * cbn [rbind]. apply (REST s1 cl); auto.
        -- eauto.
        -- rewrite app_nil_r. reflexivity.
Qed.
