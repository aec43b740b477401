(** The state machine of incoming transfers and the grammar. *)
From Verif Require Import Base RdatasetModel RdatasetSpec RdatasetProofs RdatasetProps NodeModel NodeProps SerialModel ZoneModel ZoneProofs ZoneView ZoneFold ZoneExamples ZoneTreeProps ChangesetProofs MergeProofs DiffModel DiffProofs ChangesetProps XfrModel XfrSpec.

Lemma ixfr_app : forall cf l1 l2 d, ixfr_rrs cf (l1 ++ l2) d = let* (k, d) := ixfr_rrs cf l1 d in match k with CONSUME => ixfr_rrs cf l2 d | _ => Ok (k, d) end.
Proof.
  induction l1 as [|r l1 IH]; intros l2 d; cbn [app ixfr_rrs rbind]; auto. destruct (d_state d); auto. destruct (ixfr_consume_rr cf d i r) as [[k d']| | |]; cbn [rbind]; auto. destruct k; auto.
Qed.
Lemma axfr_app : forall cf l1 l2 d, axfr_rrs cf (l1 ++ l2) d = let* (k, d) := axfr_rrs cf l1 d in match k with CONSUME => axfr_rrs cf l2 d | _ => Ok (k, d) end.
Proof.
  induction l1 as [|r l1 IH]; intros l2 d; cbn [app axfr_rrs rbind]; auto. destruct (d_axfr d); auto. destruct (axfr_consume_rr cf d c r) as [[k d']| | |]; cbn [rbind]; auto. destruct k; auto.
Qed.
Lemma soa_spec : forall r, is_soa r = true <-> soa_rr r. Proof. intros r. unfold is_soa, soa_rr. lia. Qed.
Lemma soa_nspec : forall r, is_soa r = false <-> ~ soa_rr r. Proof. intros r. unfold is_soa, soa_rr. lia. Qed.
Lemma proper_is : forall a r, proper a r -> exists b, is (rr_rrs (snd r)) b.
Proof. intros a r (c & b & G). exists b. apply G. Qed.
Lemma equal_spec : forall a r s, proper a r -> proper a s -> exists e, rrset_equal r s = Ok e /\ (e = true <-> same_rr r s).
Proof.
  intros a r s PR PS. destruct (proper_is _ _ PR) as [b HB]. destruct (proper_is _ _ PS) as [b' HB']. unfold rrset_equal, same_rr. destruct (rr_type (snd r) =? rr_type (snd s)) eqn:E1; cbn [negb orb]; [|exists false; split; auto; split; [discriminate|lia]]. destruct (rr_ttl (snd r) =? rr_ttl (snd s)) eqn:E2; cbn [negb]; [|exists false; split; auto; split; [discriminate|lia]].
  destruct (name_eqb (fst r) (fst s)) eqn:E3; cbn [negb]; [|exists false; split; auto; split; [discriminate|intros (H & _); rewrite H, neqb_refl in E3; discriminate]]. apply neqb_spec in E3. destruct (c07_eq _ _ _ _ HB HB') as (e & -> & He). exists e. split; auto. rewrite He. split.
  - intros H. split; auto. split; [lia|]. split; [lia|]. exists b. split; auto. assert (E : rr_rrs (snd r) = rr_rrs (snd s)) by (apply (c07_canonical_form _ _ b b'); auto). rewrite <- E. auto.
  - intros (_ & _ & _ & b0 & H1 & H2). rewrite (is_fun _ _ _ HB H1), (is_fun _ _ _ HB' H2). tauto.
Qed.

(** ** Changesets made of the records *)
Definition cfrom (a : name) (r : rrset) : changeset := mkch (contents_new a) (contents_new a) (Some r) None.
Definition cto (c : changeset) (r : rrset) : changeset := mkch (ch_add c) (ch_rem c) (soa_from c) (Some r).
Definition dels (c : changeset) (l : list rrset) : res changeset := fold_res (fun c r => changeset_add_removal c r false) l c.
Definition adds (c : changeset) (l : list rrset) : res changeset := fold_res (fun c r => changeset_add_addition c r false) l c.
Definition made1 (a : name) (x : diff) (c : changeset) : Prop := exists c1, dels (cfrom a (df_from x)) (df_del x) = Ok c1 /\ adds (cto c1 (df_to x)) (df_add x) = Ok c.
Definition made (a : name) (ds : list diff) (cs : list changeset) : Prop := Forall2 (made1 a) ds cs.
Lemma fold_snoc : forall (A B : Type) (f : A -> B -> res A) l x a, fold_res f (l ++ [x]) a = let* a := fold_res f l a in f a x.
Proof. intros. rewrite fold_app. destruct (fold_res f l a); cbn [rbind fold_res]; auto. destruct (f a0 x); auto. Qed.

(** ** The invariant *)
Definition flat (ds : list diff) : list rrset := concat (map drecords ds).
Lemma flat_snoc : forall ds x, flat (ds ++ [x]) = flat ds ++ drecords x.
Proof. intros. unfold flat. rewrite map_app, concat_app. cbn [map concat]. rewrite app_nil_r. auto. Qed.
Definition later (s : rrset) (ds : list diff) (from : rrset) : Prop := ds = [] \/ ~ same_rr from s.
Record before (b1 : bool) (s : rrset) (ds : list diff) : Prop := {
  bf_soa : soa_rr s; bf_ok : Forall diff_ok ds; bf_one : b1 = true -> ds = []; bf_later : Forall (fun x => ~ same_rr (df_from x) s) (tl ds) }.
Definition inv (cf : xconf) (b1 : bool) (d : xdata) (seen : list rrset) : Prop :=
  let a := c_zone cf in
  match d_state d with
  | None => False
  | Some IXFR_START => d_by_one d = b1 /\ d_chs d = [] /\ ((d_final d = None /\ seen = []) \/ exists s, d_final d = Some s /\ soa_rr s /\ seen = [s])
  | Some IXFR_SOA_DEL | Some IXFR_DEL => d_by_one d = b1 /\ exists s ds cs from dl c, d_final d = Some s /\ before b1 s ds /\ made a ds cs /\ soa_rr from /\ later s ds from /\ Forall (fun r => ~ soa_rr r) dl /\
      dels (cfrom a from) dl = Ok c /\ d_chs d = c :: rev cs /\ seen = s :: flat ds ++ from :: dl
  | Some IXFR_SOA_ADD | Some IXFR_ADD => d_by_one d = b1 /\ exists s ds cs x c, d_final d = Some s /\ before b1 s ds /\ made a ds cs /\ diff_ok x /\ later s ds (df_from x) /\
      made1 a x c /\ d_chs d = c :: rev cs /\ seen = s :: flat ds ++ drecords x
  | Some IXFR_DONE => exists ds, ixfr_form b1 seen ds /\ made a ds (rev (d_chs d))
  end.
Definition known (d : xdata) (a : name) : Prop := match d_final d with Some s => proper a s | None => True end.
Definition kind (st : option ixfr_state) : kstate := match st with Some IXFR_DONE => DONE | _ => CONSUME end.

Lemma made_snoc : forall a ds cs x c, made a ds cs -> made1 a x c -> made a (ds ++ [x]) (cs ++ [c]).
Proof. intros. apply Forall2_app; auto. Qed.
Lemma before_snoc : forall s ds x, before false s ds -> diff_ok x -> later s ds (df_from x) -> before false s (ds ++ [x]).
Proof.
  intros s ds x [H1 H2 H3 H4] HX HL. split; auto; [apply Forall_app; auto|discriminate|]. destruct ds as [|y ds]; [constructor|]. cbn [tl app] in *. apply Forall_app. split; auto. constructor; auto. destruct HL as [HL|HL]; [discriminate|auto].
Qed.
Lemma form_done : forall b1 s ds x r, before b1 s ds -> diff_ok x -> later s ds (df_from x) -> soa_rr r -> (b1 = true \/ same_rr r s) -> ixfr_form b1 (s :: flat (ds ++ [x]) ++ [r]) (ds ++ [x]).
Proof.
  intros b1 s ds x r [H1 H2 H3 H4] HX HL HR HS. exists s, r, []. split; [reflexivity|]. split; auto. split; auto. split; [destruct ds; discriminate|]. split; [apply Forall_app; auto|]. split.
  - destruct b1; [rewrite (H3 eq_refl); reflexivity|]. destruct HS as [HS|HS]; [discriminate|auto].
  - destruct ds as [|y ds]; [constructor|]. cbn [tl app] in *. apply Forall_app. split; auto. constructor; auto. destruct HL as [HL|HL]; [discriminate|auto].
Qed.

(** ** Soundness of a step *)
Lemma next_add : forall a st s b1 r st' b', proper a r -> proper a s -> st = IXFR_SOA_ADD \/ st = IXFR_ADD -> next_state st (Some s) b1 r = Ok (st', b') ->
  (st' = IXFR_DONE /\ (same_rr r s \/ (b1 = true /\ soa_rr r))) \/ (~ same_rr r s /\ b' = b1 /\ ((st' = IXFR_SOA_DEL /\ soa_rr r /\ b1 = false) \/ (st' = IXFR_ADD /\ ~ soa_rr r))).
Proof.
  intros a st s b1 r st' b' PR PS HST E. destruct (equal_spec a r s PR PS) as (e & EE & He). unfold next_state in E. rewrite EE in E. destruct HST as [-> | ->]; cbn [rbind] in E; (destruct e; [injection E as <- <-; left; split; auto; left; apply He; auto|]); (assert (NS : ~ same_rr r s) by (intros X; apply He in X; discriminate)); destruct (is_soa r) eqn:ES; cbn [andb] in E.
  all: try (destruct b1; [injection E as <- <-; left; split; auto; right; split; auto; apply soa_spec; auto|]).
  all: injection E as <- <-; right; split; auto; split; auto; first [left; split; [reflexivity|]; split; [apply soa_spec; assumption|reflexivity]|right; split; [reflexivity|]; apply soa_nspec; assumption].
Qed.
Lemma same_soa : forall r s, same_rr r s -> soa_rr s -> soa_rr r.
Proof. intros r s (_ & H & _) HS. unfold soa_rr in *. congruence. Qed.

Lemma step_sound : forall cf b1 d st r seen k d', inv cf b1 d seen -> known d (c_zone cf) -> d_state d = Some st -> st <> IXFR_DONE -> proper (c_zone cf) r ->
  ixfr_consume_rr cf d st r = Ok (k, d') -> k <> FAIL ->
  k = kind (d_state d') /\ inv cf b1 d' (seen ++ (if under (fst r) (c_zone cf) then [r] else [])) /\ known d' (c_zone cf) /\ d_type d' = d_type d.
Proof.
  intros cf b1 d st r seen k d' I K HST ND PR E NF. unfold ixfr_consume_rr in E. destruct (under (fst r) (c_zone cf)) eqn:EU; cbn [negb] in E.
  2:{ injection E as <- <-. rewrite app_nil_r. split; auto. rewrite HST. unfold kind. destruct st; auto. contradiction. }
  destruct (next_state st (d_final d) (d_by_one d) r) as [[st' b']| | |] eqn:EN; cbn [rbind] in E; try discriminate.
  destruct (solve (c_zone cf) st' (d_final d) (d_chs d) r) as [[final chs]|e| |] eqn:ES; try discriminate; [|injection E as <- <-; contradiction].
  destruct (rrset_size r) as [sz| | |]; cbn [rbind] in E; try discriminate. destruct ((d_size d + sz) / 2 >? c_max cf); [injection E as <- <-; contradiction|]. injection E as <- <-. unfold inv in I. rewrite HST in I.
  assert (FIN : forall s, d_final d = Some s -> proper (c_zone cf) s) by (intros s H; unfold known in K; rewrite H in K; auto).
  assert (TAIL : forall s, final = Some s -> proper (c_zone cf) s -> known (mkd (d_type d) (d_isoa d) (Some st') final chs b' (d_size d + sz) (d_axfr d) KNOT_EOK) (c_zone cf)) by (intros s H1 H2; unfold known; cbn [d_final]; rewrite H1; auto).
  split; [destruct st'; reflexivity|]. cbn [d_type].
  assert (SOLVE : match st' with IXFR_START => final = Some r /\ chs = [] /\ soa_rr r /\ d_final d = None | IXFR_SOA_DEL => final = d_final d /\ chs = cfrom (c_zone cf) r :: d_chs d /\ soa_rr r
     | IXFR_DEL => final = d_final d /\ exists c cs c', d_chs d = c :: cs /\ changeset_add_removal c r false = Ok c' /\ chs = c' :: cs
     | IXFR_SOA_ADD => final = d_final d /\ exists c cs, d_chs d = c :: cs /\ soa_rr r /\ chs = cto c r :: cs
     | IXFR_ADD => final = d_final d /\ exists c cs c', d_chs d = c :: cs /\ changeset_add_addition c r false = Ok c' /\ chs = c' :: cs
     | IXFR_DONE => final = d_final d /\ chs = d_chs d end).
  { clear - ES. unfold solve in ES. destruct st'.
    - destruct (d_final d); [discriminate|]. destruct (is_soa r) eqn:EQ; [|discriminate]. injection ES as <- <-. split; auto. split; auto. split; auto. apply soa_spec. auto.
    - destruct (is_soa r) eqn:EQ; [|discriminate]. injection ES as <- <-. split; auto. split; auto. apply soa_spec. auto.
    - destruct (d_chs d) as [|c cs]; [discriminate|]. destruct (changeset_add_removal c r false) as [c'| | |] eqn:EC; cbn [rbind] in ES; try discriminate. injection ES as <- <-. split; auto. exists c, cs, c'. auto.
    - destruct (d_chs d) as [|c cs]; [discriminate|]. destruct (is_soa r) eqn:EQ; [|discriminate]. injection ES as <- <-. split; auto. exists c, cs. split; auto. split; auto. apply soa_spec. auto.
    - destruct (d_chs d) as [|c cs]; [discriminate|]. destruct (changeset_add_addition c r false) as [c'| | |] eqn:EC; cbn [rbind] in ES; try discriminate. injection ES as <- <-. split; auto. exists c, cs, c'. auto.
    - injection ES as <- <-. auto. }
  clear ES. unfold inv. cbn [d_state d_by_one d_chs d_final]. destruct st.
  - destruct I as (IB & IC & I). assert (EN' : st' = (match d_final d with Some _ => IXFR_SOA_DEL | None => IXFR_START end) /\ b' = d_by_one d) by (clear - EN; unfold next_state in EN; cbn [rbind andb] in EN; injection EN as <- <-; auto). destruct EN' as [-> ->]. destruct I as [[IF ->]|(s & IF & IS & ->)]; rewrite IF in SOLVE.
    + destruct SOLVE as (-> & -> & HS & _). rewrite IF. split; [|split; auto; unfold known; cbn [d_final]; auto]. split; auto. split; auto. right. exists r. auto.
    + destruct SOLVE as (-> & -> & HS). rewrite IF. split; [|split; [unfold known; cbn [d_final]; auto|auto]]. split; auto. exists s, [], [], r, [], (cfrom (c_zone cf) r). rewrite IC. split; auto. split; [split; auto; constructor|]. split; [constructor|]. split; auto. split; [left; auto|]. split; auto.
  - destruct I as (IB & s & ds & cs & from & dl & c & IF & BF & MD & SF & LT & ND' & DL & IC & ->). assert (EN' : st' = (if is_soa r then IXFR_SOA_ADD else IXFR_DEL) /\ b' = d_by_one d) by (clear - EN; unfold next_state in EN; cbn [rbind andb] in EN; injection EN as <- <-; auto). destruct EN' as [-> ->]. rewrite IF in *. destruct (is_soa r) eqn:EQ.
    + destruct SOLVE as (-> & c0 & cs0 & E0 & _ & ->). rewrite IC in E0. injection E0 as <- <-. split; [|split; [apply (TAIL s); auto|auto]]. split; auto. exists s, ds, cs, (mkdiff from dl r []), (cto c r). split; auto. split; auto. split; auto. apply soa_spec in EQ. split; [split; [auto|split; [auto|split; [auto|constructor]]]|]. split; auto. split; [exists c; auto|]. split; auto. unfold drecords. cbn [df_from df_del df_to df_add]. cbn [app]. f_equal. rewrite <- app_assoc. reflexivity.
    + destruct SOLVE as (-> & c0 & cs0 & c' & E0 & EC & ->). rewrite IC in E0. injection E0 as <- <-. split; [|split; [apply (TAIL s); auto|auto]]. split; auto. exists s, ds, cs, from, (dl ++ [r]), c'. split; auto. split; auto. split; auto. split; auto. split; auto. split; [apply Forall_app; split; auto; constructor; auto; apply soa_nspec; auto|]. split; [unfold dels in *; rewrite fold_snoc, DL; auto|]. split; auto. cbn [app]. f_equal. rewrite <- app_assoc. reflexivity.
  - destruct I as (IB & s & ds & cs & from & dl & c & IF & BF & MD & SF & LT & ND' & DL & IC & ->). assert (EN' : st' = (if is_soa r then IXFR_SOA_ADD else IXFR_DEL) /\ b' = d_by_one d) by (clear - EN; unfold next_state in EN; cbn [rbind andb] in EN; injection EN as <- <-; auto). destruct EN' as [-> ->]. rewrite IF in *. destruct (is_soa r) eqn:EQ.
    + destruct SOLVE as (-> & c0 & cs0 & E0 & _ & ->). rewrite IC in E0. injection E0 as <- <-. split; [|split; [apply (TAIL s); auto|auto]]. split; auto. exists s, ds, cs, (mkdiff from dl r []), (cto c r). split; auto. split; auto. split; auto. apply soa_spec in EQ. split; [split; [auto|split; [auto|split; [auto|constructor]]]|]. split; auto. split; [exists c; auto|]. split; auto. unfold drecords. cbn [df_from df_del df_to df_add]. cbn [app]. f_equal. rewrite <- app_assoc. reflexivity.
    + destruct SOLVE as (-> & c0 & cs0 & c' & E0 & EC & ->). rewrite IC in E0. injection E0 as <- <-. split; [|split; [apply (TAIL s); auto|auto]]. split; auto. exists s, ds, cs, from, (dl ++ [r]), c'. split; auto. split; auto. split; auto. split; auto. split; auto. split; [apply Forall_app; split; auto; constructor; auto; apply soa_nspec; auto|]. split; [unfold dels in *; rewrite fold_snoc, DL; auto|]. split; auto. cbn [app]. f_equal. rewrite <- app_assoc. reflexivity.
  - destruct I as (IB & s & ds & cs & x & c & IF & BF & MD & DX & LT & M1 & IC & ->). rewrite IF, IB in EN. destruct (next_add (c_zone cf) _ _ _ _ _ _ PR (FIN s IF) (or_introl eq_refl) EN) as [(-> & HS)|(NS & -> & [(-> & HS & B0)|(-> & HS)])].
    + destruct SOLVE as (-> & ->). split; [|split; auto; eapply TAIL; eauto]. exists (ds ++ [x]). assert (SR : soa_rr r) by (destruct HS as [HS|HS]; [apply (same_soa _ s); [auto|apply BF]|apply HS]). split.
      * replace ((s :: flat ds ++ drecords x) ++ [r]) with (s :: flat (ds ++ [x]) ++ [r]) by (rewrite flat_snoc; reflexivity). apply form_done; auto. destruct HS as [HS|[HS _]]; auto.
      * rewrite IC. cbn [rev]. rewrite rev_involutive. apply made_snoc; auto.
    + destruct SOLVE as (-> & -> & _). rewrite B0 in *. split; [|split; auto; eapply TAIL; eauto]. split; auto. exists s, (ds ++ [x]), (cs ++ [c]), r, [], (cfrom (c_zone cf) r). split; auto. split; [apply before_snoc; auto|]. split; [apply made_snoc; auto|]. split; auto. split; [right; auto|]. split; auto. split; auto. split; [rewrite IC, rev_app_distr; reflexivity|]. rewrite flat_snoc. reflexivity.
    + destruct SOLVE as (-> & c0 & cs0 & c' & E0 & EC & ->). rewrite IC in E0. injection E0 as <- <-. split; [|split; auto; eapply TAIL; eauto]. split; auto. exists s, ds, cs, (mkdiff (df_from x) (df_del x) (df_to x) (df_add x ++ [r])), c'. destruct DX as (X1 & X2 & X3 & X4). destruct M1 as (c1 & M1 & M2). split; auto. split; auto. split; auto. split; [split; [auto|split; [auto|split; [auto|apply Forall_app; split; auto]]]|]. split; auto. split; [exists c1; split; auto; cbn [df_to df_add]; unfold adds in *; rewrite fold_snoc, M2; auto|]. split; auto. unfold drecords. cbn [df_from df_del df_to df_add]. cbn [app]. f_equal. rewrite <- app_assoc. cbn [app]. f_equal. rewrite <- app_assoc. reflexivity.
  - destruct I as (IB & s & ds & cs & x & c & IF & BF & MD & DX & LT & M1 & IC & ->). rewrite IF, IB in EN. destruct (next_add (c_zone cf) _ _ _ _ _ _ PR (FIN s IF) (or_intror eq_refl) EN) as [(-> & HS)|(NS & -> & [(-> & HS & B0)|(-> & HS)])].
    + destruct SOLVE as (-> & ->). split; [|split; auto; eapply TAIL; eauto]. exists (ds ++ [x]). assert (SR : soa_rr r) by (destruct HS as [HS|HS]; [apply (same_soa _ s); [auto|apply BF]|apply HS]). split.
      * replace ((s :: flat ds ++ drecords x) ++ [r]) with (s :: flat (ds ++ [x]) ++ [r]) by (rewrite flat_snoc; reflexivity). apply form_done; auto. destruct HS as [HS|[HS _]]; auto.
      * rewrite IC. cbn [rev]. rewrite rev_involutive. apply made_snoc; auto.
    + destruct SOLVE as (-> & -> & _). rewrite B0 in *. split; [|split; auto; eapply TAIL; eauto]. split; auto. exists s, (ds ++ [x]), (cs ++ [c]), r, [], (cfrom (c_zone cf) r). split; auto. split; [apply before_snoc; auto|]. split; [apply made_snoc; auto|]. split; auto. split; [right; auto|]. split; auto. split; auto. split; [rewrite IC, rev_app_distr; reflexivity|]. rewrite flat_snoc. reflexivity.
    + destruct SOLVE as (-> & c0 & cs0 & c' & E0 & EC & ->). rewrite IC in E0. injection E0 as <- <-. split; [|split; auto; eapply TAIL; eauto]. split; auto. exists s, ds, cs, (mkdiff (df_from x) (df_del x) (df_to x) (df_add x ++ [r])), c'. destruct DX as (X1 & X2 & X3 & X4). destruct M1 as (c1 & M1 & M2). split; auto. split; auto. split; auto. split; [split; [auto|split; [auto|split; [auto|apply Forall_app; split; auto]]]|]. split; auto. split; [exists c1; split; auto; cbn [df_to df_add]; unfold adds in *; rewrite fold_snoc, M2; auto|]. split; auto. unfold drecords. cbn [df_from df_del df_to df_add]. cbn [app]. f_equal. rewrite <- app_assoc. cbn [app]. f_equal. rewrite <- app_assoc. reflexivity.
  - contradiction.
Qed.
