(** C38: catalog zones and their members. *)
From Verif Require Import Base ZoneModel CatalogModel CatalogSpec CatalogProofs CatalogProofs2 CatalogProofs3.

(** Every history of changes and replacements of catalog zones, whatever waits: when the changes are processed, a zone
    is a member of exactly the catalog which lists it. Catalogs don't list the same zone, see [orderly] and the refutations. *)
Theorem c38_sync_partial : forall cfg z u d, csteps cfg z u d ->
  exists u' d', finalize u d cfg [] = Ok u' /\ update_commit u' d false = Ok (d', KNOT_EOK) /\
    forall m o c, (exists g, member_of d' m = Some (o, c, g)) <-> lists z m o c.
Proof.
  intros cfg z u d H. destruct (commit_synced cfg z u d (steps_synced cfg z u d H)) as (u' & d' & E1 & E2 & _ & K). eauto.
Qed.
(** No change of a catalog fails. *)
Theorem c38_no_error_partial : forall cfg z u d c new, csteps cfg z u d -> orderly cfg (zset z c new) ->
  (exists u', run_ops u d (diff_ops c (z c) new) [] = Ok (u', KNOT_EOK)) /\
  (u = [] -> exists u', run_ops [] d (full_ops c d new) [] = Ok (u', KNOT_EOK)).
Proof.
  intros cfg z u d c new H HO. pose proof (steps_synced cfg z u d H) as HS. split.
  - destruct (diff_synced cfg z u d c new HS HO) as (u' & E & _). eauto.
  - intros ->. destruct (full_synced cfg z d c new HS HO) as (u' & E & _). eauto.
Qed.

(** Any changes of any catalogs processed together, with groups: a zone is a member of who listed it first and hasn't
    stopped, the configuration has precedence. [calm]: without conflicts. *)
Theorem c38_changes_partial : forall cfg d ops, NoDup (map fst d) -> Forall (proper cfg) ops ->
  (forall m, calm m (member_of d m) false ops) ->
  exists d', process d ops cfg = Ok d' /\
    forall m, member_of d' m = if cfg m then None else fold_left (hstep m) ops (member_of d m).
Proof. intros cfg d ops H1 H2 H3. destruct (process_calm cfg d ops H1 H2 H3) as (d' & E & _ & K). eauto. Qed.

(** Other catalogs may do what they want, except for setting a group of a zone they don't have: the zone stays with its
    catalog. Allocations and LMDB may fail. *)
Theorem c38_no_steal_partial : forall cfg d ops fl fl' fail m o c g u ret u' d' ret', NoDup (map fst d) -> cfg m = false ->
  member_of d m = Some (o, c, g) ->
  (forall x, In x ops -> co_m x = m ->
     match co_type x with
     | URem => co_chk x = true /\ (co_o x, co_c x) <> (o, c)
     | UProp => co_chk x = true \/ (co_o x, co_c x) = (o, c)
     | UAdd => True
     | _ => False
     end) ->
  run_ops [] d ops fl = Ok (u, ret) -> finalize u d cfg fl' = Ok u' -> update_commit u' d fail = Ok (d', ret') ->
  exists g', member_of d' m = Some (o, c, g').
Proof.
  intros cfg d ops fl fl' fail m o c g u ret u' d' ret' HN HC HD HX E1 E2 E3. eapply kept_end; try eassumption.
  apply Forall_forall. intros x Hx Hm. specialize (HX x Hx Hm). rewrite HD. cbn [held]. destruct (co_type x); auto.
  - destruct HX as [H1 H2]. split; [exact H1|]. destruct (name_eqb o (co_o x)) eqn:EO; [|reflexivity]. destruct (name_eqb c (co_c x)) eqn:EC; [|reflexivity].
    apply nspec in EO, EC. subst. exfalso. apply H2. reflexivity.
  - destruct HX as [H1|H1]; [auto|]. right. injection H1 as <- <-. rewrite !nrefl. reflexivity.
Qed.

(** Adding a member and removing it again leaves nothing. *)
Theorem c38_cancel : forall u m o c g chk chk' fail fail' u1, aget m u = None ->
  update_add u m o c UAdd g chk fail = Ok (u1, KNOT_EOK) -> aget m u1 <> None ->
  exists u2, update_add u1 m o c URem [] chk' fail' = Ok (u2, KNOT_EOK) /\ forall m', aget m' u2 = aget m' u.
Proof.
  intros u m o c g chk chk' fail fail' u1 HG E HN. unfold update_add in *. destruct (bailiwick_shift o c) as [b|]; [|discriminate E]. rewrite HG in E.
  assert (E' : u1 = aset m (mkcv UAdd None (Some (o, c)) (match g with [] => None | _ => Some g end)) u).
  { destruct chk as [d|]; repeat match type of E with context [if ?b then _ else _] => destruct b end; try discriminate; injection E as <-; try congruence; reflexivity. }
  subst u1. rewrite aget_set, nrefl. cbn [v_type]. unfold upd_val_equal. cbn [v_add]. rewrite !nrefl. cbn [andb negb].
  eexists. split; [reflexivity|]. intros m'. rewrite aget_del, aget_set. destruct (name_eqb m' m) eqn:EM; [|reflexivity]. apply nspec in EM. subst. auto.
Qed.

(** A member removed and added again before the changes are processed: its content is kept exactly if the label above
    "zones" is the same. *)
Theorem c38_unique : forall u m x y c z c' fail u1 u2 fail', aget m u = None ->
  update_add u m (x :: z :: c) c URem [] None fail = Ok (u1, KNOT_EOK) ->
  update_add u1 m (y :: z :: c') c' UAdd [] None fail' = Ok (u2, KNOT_EOK) ->
  exists v, aget m u2 = Some v /\ v_add v = Some (y :: z :: c', c') /\ v_rem v = Some (x :: z :: c, c) /\
    ((x = y /\ v_type v = UMinor) \/ (x <> y /\ v_type v = UUniq)).
Proof.
  intros u m x y c z c' fail u1 u2 fail' HG E1 E2. unfold update_add in E1. destruct (bailiwick_shift (x :: z :: c) c); [|discriminate E1]. rewrite HG in E1.
  destruct fail; [discriminate E1|]. injection E1 as <-. unfold update_add in E2. destruct (bailiwick_shift (y :: z :: c') c'); [|discriminate E2].
  rewrite aget_set, nrefl in E2. cbn [v_type upd_val_new v_rem v_add v_group] in E2. destruct fail'; [discriminate E2|]. unfold same_uniq, get_uniq in E2.
  assert (HL : forall a b (q : name), (length (a :: b :: q) <? length q + 2)%nat = false) by (intros; apply Nat.ltb_ge; cbn [length]; lia).
  assert (HN : forall a b (q : name), nth (length (a :: b :: q) - length q - 2) (a :: b :: q) [] = a) by (intros a b q; replace (length (a :: b :: q) - length q - 2)%nat with 0%nat by (cbn [length]; lia); reflexivity).
  rewrite !HL in E2. cbn [rbind] in E2. rewrite !HN in E2. injection E2 as <-. eexists. rewrite aget_set, nrefl. split; [reflexivity|]. cbn [v_add v_rem v_type]. split; [reflexivity|]. split; [reflexivity|].
  assert (B : forall a b, bytes_eqb a b = true <-> a = b).
  { induction a as [|q a IH]; destruct b as [|w b]; cbn [bytes_eqb]; split; intros HH; try discriminate; auto.
    - apply andb_true_iff in HH. destruct HH as [H1 H2]. apply Z.eqb_eq in H1. apply IH in H2. congruence.
    - injection HH as -> ->. rewrite Z.eqb_refl. apply IH. reflexivity. }
  destruct (bytes_eqb x y) eqn:E; [left|right]; (split; [|reflexivity]).
  - apply B. exact E.
  - intros ->. assert (bytes_eqb y y = true) by (apply B; reflexivity). congruence.
Qed.
(** A change fails if one of its owners isn't in the catalog. *)
Theorem c38_error : forall ops u d fl u' ret, run_ops u d ops fl = Ok (u', ret) -> ret = KNOT_EOK ->
  forall x, In x ops -> exists l, co_o x = l ++ co_c x.
Proof.
  assert (HB : forall o c n, bailiwick_shift o c = Some n -> exists l, o = l ++ c).
  { induction o as [|a r IH]; intros c n E; cbn [bailiwick_shift] in E.
    - destruct (name_eqb [] c) eqn:EC; [|discriminate]. apply nspec in EC. subst c. exists []. reflexivity.
    - destruct (name_eqb (a :: r) c) eqn:EC; [apply nspec in EC; subst c; exists []; reflexivity|].
      destruct (bailiwick_shift r c) as [k|] eqn:EB; [|discriminate]. destruct (IH c k EB) as (l & ->). exists (a :: l). reflexivity. }
  induction ops as [|o r IH]; intros u d fl u' ret E HR x HI; [destruct HI|]; destruct HI as [<-|HX]; cbn [run_ops] in E.
  - destruct (update_add u (co_m o) (co_o o) (co_c o) (co_type o) (co_g o) _ (hd false fl)) as [[u1 r1]| | |] eqn:E1; cbn [rbind] in E; try discriminate.
    destruct (bailiwick_shift (co_o o) (co_c o)) as [n|] eqn:EB; [eapply HB; exact EB|]. exfalso.
    unfold update_add in E1. rewrite EB in E1. injection E1 as <- <-. cbn in E. injection E as <- <-. discriminate HR.
  - destruct (update_add u (co_m o) (co_o o) (co_c o) (co_type o) (co_g o) _ (hd false fl)) as [[u1 r1]| | |] eqn:E1; cbn [rbind] in E; try discriminate.
    destruct (r1 =? KNOT_EOK) eqn:ER; [eapply IH; eassumption|]. injection E as <- <-. subst r1. discriminate ER.
Qed.

(** The commit is done as a whole or not at all; what the update doesn't name is left as it is. *)
Theorem c38_atomic : forall u d fail d' ret, update_commit u d fail = Ok (d', ret) ->
  (ret <> KNOT_EOK -> d' = d) /\ forall m, aget m u = None -> aget m d' = aget m d.
Proof.
  assert (HL : forall u d d' ret, commit_loop u d = Ok (d', ret) -> forall m, aget m u = None -> aget m d' = aget m d).
  { induction u as [|[k v] r IH]; intros d d' ret E m HM; cbn [commit_loop] in E; [injection E as <- <-; reflexivity|].
    cbn [aget] in HM. destruct (name_eqb m k) eqn:EM; [discriminate|]. apply nne in EM.
    destruct (commit_one k v d) as [[d1 r1]| | |] eqn:E1; cbn [rbind] in E; try discriminate.
    assert (H1 : aget m d1 = aget m d).
    { unfold commit_one in E1. destruct (v_type v);
        try (destruct (v_add v) as [[o c]|]; [|discriminate]; unfold catalog_add in E1; destruct (bailiwick_shift o c); injection E1 as <- <-; [apply aget_set_ne; exact EM|reflexivity]).
      - injection E1 as <- <-. reflexivity.
      - injection E1 as <- <-. apply aget_del_ne. exact EM. }
    destruct (r1 =? KNOT_EOK); [rewrite (IH _ _ _ E m HM); exact H1|injection E as <- <-; exact H1]. }
  intros u d fail d' ret E. unfold update_commit in E. destruct u as [|x r] eqn:EU; [injection E as <- <-; split; [contradiction|reflexivity]|].
  destruct fail; [injection E as <- <-; split; reflexivity|]. destruct (commit_loop (x :: r) d) as [[d1 r1]| | |] eqn:EC; cbn [rbind] in E; try discriminate.
  destruct (r1 =? KNOT_EOK); injection E as <- <-; (split; [try reflexivity; contradiction|]); [|reflexivity]. intros m. apply (HL _ _ _ _ EC).
Qed.

(** ** Examples: catalogs "a" and "b", members "m" and "n" *)
Definition ca : name := [[97]].
Definition cb : name := [[98]].
Definition nm : name := [[109]].
Definition nn : name := [[110]].
Definition own (x : Z) (c : name) : name := [x] :: [122] :: c.
Definition ex_cfg (n : name) : bool := name_eqb n ca || name_eqb n cb.
Lemma below_own : forall x c, exists l, own x c = l ++ c /\ (2 <= length l)%nat.
Proof. intros x c. exists [[x]; [122]]. split; [reflexivity|]. cbn [length]. lia. Qed.
Definition entry (x : Z) (c m : name) : centry := mkce (own x c) m None.

Definition z0 : zones := fun _ => [].
Ltac ord := split; [|split].
Lemma ord1 : forall l z, NoDup (map e_o l) -> NoDup (map e_m l) -> (forall e, In e l -> ex_cfg (e_m e) = false /\ e_g e = None) ->
  (forall c e, In e (z c) -> c <> cb -> False) -> forall c0, c0 = cb -> (forall e, In e l -> exists x, e_o e = own x cb) ->
  orderly ex_cfg (zset z c0 l).
Proof.
  intros l z H1 H2 H3 HZ c0 -> HO. ord.
  - intros c e He. unfold zset in He. destruct (name_eqb c cb) eqn:EC; [|exfalso; apply nne in EC; eapply HZ; eassumption]. apply nspec in EC. subst c.
    destruct (H3 e He) as [K1 K2]. split; [reflexivity|]. split; [exact K1|]. split; [exact K2|]. destruct (HO e He) as (x & ->). apply below_own.
  - intros c. unfold zset. destruct (name_eqb c cb) eqn:EC; [exact H1|]. apply nne in EC. destruct (z c) as [|e r] eqn:EZ; [constructor|]. exfalso. apply (HZ c e); [rewrite EZ; left; reflexivity|exact EC].
  - assert (HI : forall m o c, lists (zset z cb l) m o c -> c = cb /\ exists e, In e l /\ e_m e = m /\ e_o e = o).
    { intros m o c K. apply lists_in in K. destruct K as (e & K1 & K2 & K3). unfold zset in K1. destruct (name_eqb c cb) eqn:EC; [|exfalso; apply nne in EC; eapply HZ; eassumption].
      apply nspec in EC. eauto. }
    intros m o c o' c' A B. destruct (HI _ _ _ A) as (-> & e & A1 & A2 & A3), (HI _ _ _ B) as (-> & e' & B1 & B2 & B3). split; [|reflexivity].
    assert (e = e'); [|congruence]. clear -H2 A1 B1 A2 B2. revert A1 B1. induction l as [|x r IH]; intros A1 B1; [destruct A1|]. cbn [map] in H2. inversion H2; subst.
    destruct A1 as [<-|A1], B1 as [<-|B1]; auto.
    + exfalso. apply H1. rewrite <- B2. apply in_map. exact B1.
    + exfalso. apply H1. rewrite B2. apply in_map. exact A1.
Qed.
Example c38_ex_steps : exists u d, csteps ex_cfg (zset z0 cb [entry 7 cb nm; entry 8 cb nn]) u d /\ length u = 2%nat.
Proof.
  destruct (run_ops [] [] (diff_ops cb (z0 cb) [entry 7 cb nm; entry 8 cb nn]) []) as [[u r]| | |] eqn:E; try (exfalso; vm_compute in E; discriminate E).
  assert (r = KNOT_EOK /\ length u = 2%nat) by (vm_compute in E; injection E as <- <-; split; reflexivity). destruct H as [-> HL].
  exists u, []. split; [|exact HL]. eapply cs_diff; [apply cs_0| |exact E]. apply ord1; auto.
  - repeat constructor; cbn [In entry e_o map]; intuition discriminate.
  - repeat constructor; cbn [In entry e_m map]; intuition discriminate.
  - intros e [<-|[<-|[]]]; split; reflexivity.
  - intros e [<-|[<-|[]]]; [exists 7|exists 8]; reflexivity.
Qed.

(** A member moves from "a" to "b" in one batch, "a" first; the other member of "a" stays. *)
Example c38_ex_move : exists d',
  process [(nm, (own 1 ca, 2%nat, [])); (nn, (own 2 ca, 2%nat, []))]
    (diff_ops ca [entry 1 ca nm; entry 2 ca nn] [entry 2 ca nn] ++ diff_ops cb [] [entry 7 cb nm]) ex_cfg = Ok d' /\
  member_of d' nm = Some (own 7 cb, cb, []) /\ member_of d' nn = Some (own 2 ca, ca, []).
Proof. eexists. split; [vm_compute; reflexivity|]. split; reflexivity. Qed.

(** ** Conflicts *)
Definition a_m : cdb := [(nm, (own 1 ca, 2%nat, [103]))].
(** "b" lists m, which belongs to "a", and changes the group of m: m is stolen with the change. The change of "b" is
    from a version with m in group "x" to one with group "y". *)
Theorem c38_steal_refuted : exists d',
  process a_m (diff_ops cb [mkce (own 5 cb) nm (Some [120])] [mkce (own 5 cb) nm (Some [121])]) ex_cfg = Ok d' /\
  member_of a_m nm = Some (own 1 ca, ca, [103]) /\ member_of d' nm = Some (own 5 cb, cb, [121]).
Proof. eexists. split; [vm_compute; reflexivity|]. split; reflexivity. Qed.
(** "b" lists m before "a" stops listing it: m stays with "a", which doesn't list it any more. *)
Theorem c38_stale_refuted : exists d',
  process a_m (diff_ops cb [] [entry 5 cb nm] ++ diff_ops ca [mkce (own 1 ca) nm (Some [103])] []) ex_cfg = Ok d' /\
  member_of d' nm = Some (own 1 ca, ca, [103]).
Proof. eexists. split; [vm_compute; reflexivity|]. reflexivity. Qed.
(** The group of m changes and then m gets a new owner before the first change is processed: the server crashes. *)
Theorem c38_crash_refuted :
  run_ops [] a_m (diff_ops ca [mkce (own 1 ca) nm (Some [103])] [mkce (own 1 ca) nm (Some [104])] ++
                  diff_ops ca [mkce (own 1 ca) nm (Some [104])] [mkce (own 2 ca) nm (Some [104])]) [] = UB.
Proof. vm_compute. reflexivity. Qed.
(** m is replaced by n in the same node, which has a group: the group of n is lost. *)
Theorem c38_group_lost_refuted : exists d',
  process a_m (diff_ops ca [mkce (own 1 ca) nm (Some [103])] [mkce (own 1 ca) nn (Some [103])]) ex_cfg = Ok d' /\
  member_of d' nn = Some (own 1 ca, ca, []).
Proof. eexists. split; [vm_compute; reflexivity|]. reflexivity. Qed.
(** A new member waits, then the whole zone is replaced by one without it: it becomes a member. *)
Theorem c38_replaced_refuted : exists d',
  process [] (diff_ops ca [] [entry 1 ca nm] ++ full_ops ca [] []) ex_cfg = Ok d' /\ member_of d' nm = Some (own 1 ca, ca, []).
Proof. eexists. split; [vm_compute; reflexivity|]. reflexivity. Qed.
(** m is added to the configuration, but "b" has listed it: it stays a member of "a" as well. *)
Theorem c38_configured_refuted : exists d',
  process a_m (diff_ops cb [] [entry 5 cb nm]) (fun n => ex_cfg n || name_eqb n nm) = Ok d' /\ member_of d' nm = Some (own 1 ca, ca, [103]).
Proof. eexists. split; [vm_compute; reflexivity|]. reflexivity. Qed.

Print Assumptions c38_sync_partial.
Print Assumptions c38_no_error_partial.
Print Assumptions c38_changes_partial.
Print Assumptions c38_no_steal_partial.
Print Assumptions c38_unique.
Print Assumptions c38_error.
Print Assumptions c38_cancel.
Print Assumptions c38_atomic.
