(** Catalog updates: what every update keeps, and the database after the commit. *)
From Verif Require Import Base ZoneModel CatalogModel CatalogSpec.

Lemma nspec : forall a b : name, name_eqb a b = true <-> a = b.
Proof.
  assert (B : forall a b, bytes_eqb a b = true <-> a = b).
  { induction a as [|x a IH]; intros [|y b]; cbn [bytes_eqb]; split; intros H; try discriminate; auto.
    - apply andb_true_iff in H. destruct H as [H1 H2]. apply IH in H2. subst. f_equal. lia.
    - injection H as -> ->. apply andb_true_iff. split; [lia|]. apply IH. reflexivity. }
  induction a as [|x a IH]; intros [|y b]; cbn [name_eqb]; split; intros H; try discriminate; auto.
  - apply andb_true_iff in H. destruct H as [H1 H2]. apply IH in H2. apply B in H1. congruence.
  - injection H as -> ->. apply andb_true_iff. split; [apply B|apply IH]; reflexivity.
Qed.
Lemma nrefl : forall a : name, name_eqb a a = true. Proof. intros. apply nspec. reflexivity. Qed.
Lemma nne : forall a b : name, name_eqb a b = false <-> a <> b.
Proof.
  intros a b. split.
  - intros H E. subst. rewrite nrefl in H. discriminate.
  - intros H. destruct (name_eqb a b) eqn:E; [|reflexivity]. apply nspec in E. contradiction.
Qed.
Lemma nsym : forall a b : name, name_eqb a b = name_eqb b a.
Proof.
  intros a b. destruct (name_eqb a b) eqn:E, (name_eqb b a) eqn:F; try reflexivity.
  - apply nspec in E. subst. rewrite nrefl in F. discriminate.
  - apply nspec in F. subst. rewrite nrefl in E. discriminate.
Qed.

Lemma aget_del : forall A m m' (l : list (name * A)), aget m (adel m' l) = if name_eqb m m' then None else aget m l.
Proof.
  intros A m m'. induction l as [|[k v] r IH]; cbn [adel aget]; [destruct (name_eqb m m'); reflexivity|].
  destruct (name_eqb m' k) eqn:E.
  - apply nspec in E. subst k. rewrite IH. destruct (name_eqb m m'); reflexivity.
  - cbn [aget]. rewrite IH. destruct (name_eqb m k) eqn:F, (name_eqb m m') eqn:G; try reflexivity.
    apply nspec in F, G. subst. rewrite nrefl in E. discriminate.
Qed.
Lemma aget_set : forall A m m' v (l : list (name * A)), aget m (aset m' v l) = if name_eqb m m' then Some v else aget m l.
Proof. intros A m m' v l. unfold aset. cbn [aget]. rewrite aget_del. destruct (name_eqb m m'); reflexivity. Qed.
Lemma adel_keys : forall A m k (l : list (name * A)), In k (map fst (adel m l)) <-> k <> m /\ In k (map fst l).
Proof.
  intros A m k. induction l as [|[k' v] r IH]; cbn [adel map fst In]; [tauto|]. destruct (name_eqb m k') eqn:E.
  - apply nspec in E. subst k'. rewrite IH. split; [tauto|]. intros [H [F|F]]; [congruence|tauto].
  - cbn [map fst In]. rewrite IH. apply nne in E. split; [|tauto]. intros [F|F]; [subst; split; [congruence|auto]|tauto].
Qed.
Lemma adel_nodup : forall A m (l : list (name * A)), NoDup (map fst l) -> NoDup (map fst (adel m l)).
Proof.
  intros A m. induction l as [|[k v] r IH]; cbn [adel map fst]; intros H; [exact H|]. inversion H; subst.
  destruct (name_eqb m k); [auto|]. cbn [map fst]. constructor; [|auto]. rewrite adel_keys. tauto.
Qed.
Lemma aset_nodup : forall A m v (l : list (name * A)), NoDup (map fst l) -> NoDup (map fst (aset m v l)).
Proof. intros A m v l H. unfold aset. cbn [map fst]. constructor; [rewrite adel_keys; tauto|apply adel_nodup; exact H]. Qed.
Lemma aget_in : forall A m v (l : list (name * A)), NoDup (map fst l) -> In (m, v) l -> aget m l = Some v.
Proof.
  intros A m v. induction l as [|[k w] r IH]; cbn [map fst aget In]; intros H K; [destruct K|]. inversion H; subst. destruct K as [K|K].
  - injection K as -> ->. rewrite nrefl. reflexivity.
  - destruct (name_eqb m k) eqn:E; [|auto]. apply nspec in E. subst k. exfalso. apply H2. apply in_map_iff. exists (m, v). auto.
Qed.
Lemma aget_none : forall A m (l : list (name * A)), aget m l = None -> ~ In m (map fst l).
Proof.
  intros A m. induction l as [|[k w] r IH]; cbn [map fst aget In]; intros H K; [exact K|]. destruct (name_eqb m k) eqn:E; [discriminate|].
  destruct K as [K|K]; [subst; rewrite nrefl in E; discriminate|]. exact (IH H K).
Qed.
Lemma aget_none' : forall A m (l : list (name * A)), ~ In m (map fst l) -> aget m l = None.
Proof.
  intros A m. induction l as [|[k w] r IH]; cbn [map fst aget In]; intros H; [reflexivity|]. destruct (name_eqb m k) eqn:E; [|apply IH; tauto].
  apply nspec in E. subst. tauto.
Qed.
Lemma aget_some_in : forall A m v (l : list (name * A)), aget m l = Some v -> In (m, v) l.
Proof.
  intros A m v. induction l as [|[k w] r IH]; cbn [aget In]; intros H; [discriminate|]. destruct (name_eqb m k) eqn:E; [|auto].
  apply nspec in E. injection H as ->. subst. auto.
Qed.

Lemma shift_skipn : forall o c b, bailiwick_shift o c = Some b -> skipn b o = c.
Proof.
  induction o as [|x o IH]; intros c b H; cbn [bailiwick_shift] in H.
  - destruct (name_eqb [] c) eqn:E; [|discriminate]. apply nspec in E. injection H as <-. exact E.
  - destruct (name_eqb (x :: o) c) eqn:E.
    + apply nspec in E. injection H as <-. exact E.
    + destruct (bailiwick_shift o c) as [b'|] eqn:F; [|discriminate]. injection H as <-. cbn [skipn]. auto.
Qed.
Lemma shift_app : forall l c, bailiwick_shift (l ++ c) c = Some (length l).
Proof.
  induction l as [|x l IH]; intros c; cbn [app length].
  - destruct c; cbn [bailiwick_shift]; rewrite nrefl; reflexivity.
  - cbn [bailiwick_shift]. destruct (name_eqb (x :: l ++ c) c) eqn:E.
    + apply nspec in E. apply (f_equal (@length _)) in E. cbn [length] in E. rewrite app_length in E. lia.
    + rewrite IH. reflexivity.
Qed.
Lemma shift_some : forall b o, bailiwick_shift o (skipn b o) <> None.
Proof.
  intros b o. rewrite <- (firstn_skipn b o) at 1. rewrite shift_app. discriminate.
Qed.

(** Every entry but a removal says where to put the member *)
Definition okadd (v : cval) : Prop := exists o c, v_add v = Some (o, c) /\ bailiwick_shift o c <> None.
Definition fine (u : cupd) : Prop :=
  NoDup (map fst u) /\ forall m v, aget m u = Some v -> v_type v <> URem -> okadd v.
Lemma fine_set : forall u m v, fine u -> (v_type v <> URem -> okadd v) -> fine (aset m v u).
Proof.
  intros u m v [H1 H2] H. split; [apply aset_nodup; exact H1|]. intros m' v' E. rewrite aget_set in E.
  destruct (name_eqb m' m); [injection E as <-; exact H|eapply H2; exact E].
Qed.
Lemma fine_del : forall u m, fine u -> fine (adel m u).
Proof.
  intros u m [H1 H2]. split; [apply adel_nodup; exact H1|]. intros m' v' E. rewrite aget_del in E.
  destruct (name_eqb m' m); [discriminate|eapply H2; exact E].
Qed.
Lemma aget_set_ne : forall A m m' v (l : list (name * A)), m' <> m -> aget m' (aset m v l) = aget m' l.
Proof. intros A m m' v l H. rewrite aget_set. apply nne in H. rewrite H. reflexivity. Qed.
Lemma aget_del_ne : forall A m m' (l : list (name * A)), m' <> m -> aget m' (adel m l) = aget m' l.
Proof. intros A m m' l H. rewrite aget_del. apply nne in H. rewrite H. reflexivity. Qed.

Lemma update_add_fine : forall u m o c ty g chk fail u' ret, fine u ->
  update_add u m o c ty g chk fail = Ok (u', ret) -> fine u' /\ forall m', m' <> m -> aget m' u' = aget m' u.
Proof.
  intros u m o c ty g chk fail u' ret HF E. unfold update_add in E.
  destruct (bailiwick_shift o c) as [b|] eqn:EB; [|injection E as <- <-; auto].
  assert (HB : bailiwick_shift o c <> None) by congruence.
  destruct (aget m u) as [v|] eqn:EG.
  - assert (HV : v_type v <> URem -> okadd v) by (destruct HF as [_ HF]; eapply HF; exact EG).
    destruct ty; try discriminate.
    + destruct (v_type v) eqn:ET; try (injection E as <- <-; auto; fail).
      destruct fail; [injection E as <- <-; auto|].
      destruct (same_uniq _ _) as [same| | |]; cbn [rbind] in E; try discriminate. injection E as <- <-.
      split; [apply fine_set; [exact HF|]; intros _; exists o, c; cbn [v_add]; auto|]. intros m' Hm. apply aget_set_ne. exact Hm.
    + destruct (v_type v) eqn:ET; try (injection E as <- <-; auto; fail);
        (destruct (negb (upd_val_equal v o c)); [injection E as <- <-; auto|]; injection E as <- <-;
         split; [first [apply fine_del; exact HF|apply fine_set; [exact HF|]; cbn [v_type]; congruence]|
                 intros m' Hm; first [apply aget_del_ne|apply aget_set_ne]; exact Hm]).
    + destruct (set_prop v o c g fail) as [v' r'] eqn:EP. injection E as <- <-.
      split; [|intros m' Hm; apply aget_set_ne; exact Hm]. apply fine_set; [exact HF|].
      unfold set_prop in EP. destruct (_ || _) in EP; [injection EP as <- <-; exact HV|].
      destruct fail; injection EP as <- <-; cbn [v_type]; intros K; destruct (HV K) as (o1 & c1 & K1 & K2); exists o1, c1; auto.
  - assert (HN : fine (aset m (mkcv (v_type (upd_val_new o c ty)) (v_rem (upd_val_new o c ty)) (v_add (upd_val_new o c ty))
                                (match g with [] => None | _ => Some g end)) u)).
    { apply fine_set; [exact HF|]. cbn [v_type]. intros K. exists o, c. cbn [v_add]. destruct ty; cbn [upd_val_new v_type v_add] in *; auto; congruence. }
    destruct ty; destruct chk as [d|];
      repeat match type of E with context [if ?b then _ else _] => destruct b end;
      injection E as <- <-; split; auto; intros m' Hm; apply aget_set_ne; exact Hm.
Qed.
Lemma run_ops_fine : forall ops u d fl u' ret, fine u -> run_ops u d ops fl = Ok (u', ret) -> fine u'.
Proof.
  induction ops as [|o r IH]; intros u d fl u' ret HF E; cbn [run_ops] in E; [injection E as <- <-; exact HF|].
  destruct (update_add _ _ _ _ _ _ _ _) as [[u1 r1]| | |] eqn:EU; cbn [rbind] in E; try discriminate.
  destruct (update_add_fine _ _ _ _ _ _ _ _ _ _ HF EU) as [HF1 _]. destruct (r1 =? KNOT_EOK); [eapply IH; [exact HF1|exact E]|injection E as <- <-; exact HF1].
Qed.
Lemma fine_nil : fine []. Proof. split; [constructor|]. intros m v E. discriminate E. Qed.

Lemma aget_checked : forall d cfg m u,
  aget m (map (fun mv => (fst mv, checked d cfg (fst mv) (snd mv))) u) = option_map (checked d cfg m) (aget m u).
Proof.
  intros d cfg m. induction u as [|[k v] r IH]; cbn [map aget fst snd option_map]; [reflexivity|].
  destruct (name_eqb m k) eqn:E; [apply nspec in E; subst; reflexivity|exact IH].
Qed.
Lemma fine_checked : forall d cfg u, fine u -> fine (map (fun mv => (fst mv, checked d cfg (fst mv) (snd mv))) u).
Proof.
  intros d cfg u [H1 H2]. split.
  - rewrite map_map. cbn [fst]. exact H1.
  - intros m v E. rewrite aget_checked in E. destruct (aget m u) as [w|] eqn:EG; [|discriminate]. injection E as <-.
    unfold checked. destruct (check_member m w cfg d); [eapply H2; exact EG|]. cbn [v_type]. intros K.
    destruct (H2 m w EG) as (o & c & K1 & K2); [intros K'; rewrite K' in K; congruence|]. exists o, c. auto.
Qed.

(** The removal of members which got to the configuration *)
Definition removed (v : option cval) (e : name * nat * list Z) : option cval :=
  match v with
  | None => Some (mkcv URem (Some (fst (fst e), catz_of e)) None None)
  | Some w =>
      match v_type w with
      | URem => Some w
      | _ =>
          if negb (upd_val_equal w (fst (fst e)) (catz_of e)) then Some w else
          match v_type w with UAdd => None | _ => Some (mkcv URem (v_rem w) (v_add w) (v_group w)) end
      end
  end.
Lemma rem_conflicts_char : forall cfg l u, fine u -> NoDup (map fst l) ->
  exists u', rem_conflicts u l cfg [] = Ok u' /\ fine u' /\
    forall m, aget m u' = match aget m l with Some e => if cfg m then removed (aget m u) e else aget m u | None => aget m u end.
Proof.
  intros cfg. induction l as [|[k e] r IH]; intros u HF HN; cbn [rem_conflicts].
  - exists u. split; [reflexivity|]. split; [exact HF|]. intros m. reflexivity.
  - cbn [map fst] in HN. inversion HN; subst. destruct (cfg k) eqn:EC.
    + assert (HU : exists u1, update_add u k (fst (fst e)) (catz_of e) URem [] None (hd false []) = Ok (u1, KNOT_EOK) /\ aget k u1 = removed (aget k u) e).
      { unfold update_add. destruct (bailiwick_shift (fst (fst e)) (catz_of e)) as [b|] eqn:EB; [|exfalso; unfold catz_of in EB; eapply shift_some; exact EB].
        unfold removed. destruct (aget k u) as [v|] eqn:EG.
        - destruct (v_type v) eqn:ET; try (eexists; split; [reflexivity|exact EG]);
            (destruct (negb (upd_val_equal v (fst (fst e)) (catz_of e))); eexists; (split; [reflexivity|]);
             first [exact EG|rewrite aget_del, nrefl; reflexivity|rewrite aget_set, nrefl; reflexivity]).
        - cbn [hd upd_val_new v_type v_rem v_add]. eexists. split; [reflexivity|]. rewrite aget_set, nrefl. reflexivity. }
      destruct HU as (u1 & EU & HK). rewrite EU. cbn [rbind]. rewrite Z.eqb_refl. cbn [tl].
      destruct (update_add_fine _ _ _ _ _ _ _ _ _ _ HF EU) as [HF1 HO].
      destruct (IH u1 HF1 H2) as (u' & E' & HF' & HA). exists u'. split; [exact E'|]. split; [exact HF'|]. intros m. rewrite HA. cbn [aget].
      destruct (name_eqb m k) eqn:EM.
      * apply nspec in EM. subst m. rewrite (aget_none' _ k r H1), EC. exact HK.
      * apply nne in EM. rewrite (HO m EM). reflexivity.
    + destruct (IH u HF H2) as (u' & E' & HF' & HA). exists u'. split; [exact E'|]. split; [exact HF'|]. intros m. rewrite HA. cbn [aget].
      destruct (name_eqb m k) eqn:EM; [|reflexivity]. apply nspec in EM. subst m. rewrite (aget_none' _ k r H1), EC. reflexivity.
Qed.
Lemma finalize_char : forall u d cfg, fine u -> NoDup (map fst d) ->
  exists u', finalize u d cfg [] = Ok u' /\ fine u' /\
    forall m, let v := option_map (checked d cfg m) (aget m u) in
      aget m u' = match aget m d with Some e => if cfg m then removed v e else v | None => v end.
Proof.
  intros u d cfg HF HN. unfold finalize. destruct (rem_conflicts_char cfg d _ (fine_checked d cfg u HF) HN) as (u' & E & HF' & HA).
  exists u'. split; [exact E|]. split; [exact HF'|]. intros m. cbv zeta. rewrite HA, aget_checked. reflexivity.
Qed.

(** The member according to the entry of the update *)
Definition group_of (v : cval) : list Z := match v_group v with None => [] | Some g => g end.
Definition outcome (v : option cval) (h : holder) : holder :=
  match v with
  | None => h
  | Some w =>
      match v_type w with
      | URem => None
      | UInvalid => h
      | _ => match v_add w with Some (o, c) => Some (o, c, group_of w) | None => None end
      end
  end.
Lemma commit_char : forall u d, fine u -> NoDup (map fst d) ->
  exists d', commit_loop u d = Ok (d', KNOT_EOK) /\ NoDup (map fst d') /\ forall m, member_of d' m = outcome (aget m u) (member_of d m).
Proof.
  intros u. induction u as [|[k v] r IH]; intros d [HN HF] HD; cbn [commit_loop].
  - exists d. split; [reflexivity|]. split; [exact HD|]. reflexivity.
  - cbn [map fst] in HN. inversion HN; subst.
    assert (HR : fine r).
    { split; [exact H2|]. intros m w E. apply (HF m w). cbn [aget]. destruct (name_eqb m k) eqn:EM; [|exact E].
      apply nspec in EM. subst. rewrite (aget_none' _ k r H1) in E. discriminate. }
    assert (HV : v_type v <> URem -> okadd v) by (apply (HF k v); cbn [aget]; rewrite nrefl; reflexivity).
    assert (HS : exists d1, commit_one k v d = Ok (d1, KNOT_EOK) /\
                 NoDup (map fst d1) /\ member_of d1 k = outcome (Some v) (member_of d k) /\ forall m, m <> k -> member_of d1 m = member_of d m).
    { unfold outcome, commit_one. destruct (v_type v) eqn:ET;
        try (destruct HV as (o & c & K1 & K2); [congruence|]; rewrite K1; unfold catalog_add; destruct (bailiwick_shift o c) as [b|] eqn:EB; [|contradiction];
             eexists; split; [reflexivity|]; split; [apply aset_nodup; exact HD|]; split;
             [unfold member_of; rewrite aget_set, nrefl; cbn [option_map fst snd catz_of]; unfold catz_of; cbn [fst snd]; rewrite (shift_skipn _ _ _ EB); reflexivity|
              intros m Hm; unfold member_of; rewrite aget_set_ne by exact Hm; reflexivity]).
      - exists d. auto.
      - eexists. split; [reflexivity|]. split; [apply adel_nodup; exact HD|]. split; [unfold member_of; rewrite aget_del, nrefl; reflexivity|].
        intros m Hm. unfold member_of. rewrite aget_del_ne by exact Hm. reflexivity. }
    destruct HS as (d1 & ES & HD1 & HK & HO). rewrite ES. cbn [rbind]. rewrite Z.eqb_refl.
    destruct (IH d1 HR HD1) as (d' & E' & HD' & HA). exists d'. split; [exact E'|]. split; [exact HD'|]. intros m. rewrite HA. cbn [aget].
    destruct (name_eqb m k) eqn:EM.
    + apply nspec in EM. subst m. rewrite (aget_none' _ k r H1). exact HK.
    + apply nne in EM. rewrite (HO m EM). reflexivity.
Qed.
Lemma update_commit_char : forall u d, fine u -> NoDup (map fst d) ->
  exists d', update_commit u d false = Ok (d', KNOT_EOK) /\ NoDup (map fst d') /\ forall m, member_of d' m = outcome (aget m u) (member_of d m).
Proof.
  intros u d HF HD. unfold update_commit. destruct u as [|x r]; [exists d; split; [reflexivity|]; split; [exact HD|]; reflexivity|].
  destruct (commit_char (x :: r) d HF HD) as (d' & E & K). rewrite E. cbn [rbind]. rewrite Z.eqb_refl. exists d'. auto.
Qed.
