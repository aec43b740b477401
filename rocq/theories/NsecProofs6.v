(** Validation of the NSEC chain. *)
From Verif Require Import Base BitmapModel BitmapProps DnameSpec DnameProofs3 NsecModel NsecSpec NsecProofs NsecProofs2 NsecProofs3 NsecProofs4 NsecProofs5.
From Coq Require Import Sorting.Sorted.

Definition part (z : zone) (x : nm) : bool := negb (node_no_nsec (nget z x)).
Lemma part_get : forall z x, part z x = true <-> exists n, nget z x = Some n /\ has_rrsets n = true.
Proof.
  intros z x. unfold part, node_no_nsec, has_rrsets. destruct (nget z x) as [n|]; [|split; [discriminate|intros (n & X & _); discriminate]]. rewrite negb_orb. split; [eauto|]. intros (m & X & Y). injection X as <-. auto.
Qed.
Lemma participants_filter : forall z, sorted (map fst z) -> participants z = filter (part z) (map fst z).
Proof.
  intros z S. apply sorted_ext; [apply (fnames_sorted has_rrsets); auto|apply sorted_filter; auto|]. intros x. change (participants z) with (fnames has_rrsets z). rewrite fnames_in by auto. rewrite filter_In, part_get. split; [|tauto].
  intros (n & E & T). split; eauto. apply nget_names. congruence.
Qed.
Lemma participants_in : forall z x, sorted (map fst z) -> (In x (participants z) <-> part z x = true).
Proof. intros z x S. change (participants z) with (fnames has_rrsets z). rewrite fnames_in, part_get by auto. tauto. Qed.
Lemma check_connect_in : forall z a b z' sk, nget z a <> None -> part z b = true -> (check_connect z a b = Ok (z', sk) <-> z' = z /\ sk = false /\ nxt z a b).
Proof.
  intros z a b z' sk Ha Hb. unfold check_connect, part in *. apply negb_true_iff in Hb. rewrite Hb. destruct (nget z a) as [n|] eqn:E; [|congruence]. unfold nxt. destruct (n_nsec n) as [|s [|s2 ss]] eqn:EN.
  - split; [discriminate|]. intros (_ & _ & m & s & X & Y & _). congruence.
  - destruct (name_eqb (ns_next s) b) eqn:EQ.
    + apply eqb_spec in EQ. split; [intros H; injection H as <- <-; split; auto; split; auto; exists n, s; auto|]. intros (-> & -> & _). auto.
    + split; [discriminate|]. intros (_ & _ & m & s' & X & Y & Z). assert (m = n) by congruence. subst. assert (s' = s) by congruence. subst. rewrite eqb_refl in EQ. discriminate.
  - split; [discriminate|]. intros (_ & _ & m & s' & X & Y & _). congruence.
Qed.
Lemma check_connect_out : forall z a b, nget z a <> None -> part z b = false -> check_connect z a b = Ok (z, true).
Proof. intros z a b Ha Hb. unfold check_connect, part in *. apply negb_false_iff in Hb. rewrite Hb. destruct (nget z a); congruence. Qed.
Lemma check_loop : forall z first, part z first = true -> forall rest prev cur skip z' sk, (skip = false -> cur = prev) -> nget z prev <> None -> (forall x, In x rest -> nget z x <> None) ->
  (create_loop check_connect z first prev cur skip rest = Ok (z', sk) <-> z' = z /\ sk = false /\ links (nxt z) (prev :: filter (part z) rest) first).
Proof.
  intros z first PF. induction rest as [|x rest IH]; intros prev cur skip z' sk HS HP HR; cbn [create_loop filter links hd].
  - replace (if skip then check_connect z prev first else check_connect z cur first) with (check_connect z prev first) by (destruct skip; [|rewrite HS]; auto). rewrite check_connect_in by auto. tauto.
  - destruct (part z x) eqn:PX.
    + destruct (check_connect z prev x) as [[z1 s1]| | |] eqn:E; cbn [rbind].
      * apply check_connect_in in E; auto. destruct E as (-> & -> & HN). rewrite IH; auto; [cbn [hd links]; tauto|apply HR; left; auto|intros; apply HR; right; auto].
      * split; [discriminate|]. cbn [hd]. intros (_ & _ & HN & _). pose proof (proj2 (check_connect_in z prev x z false HP PX)) as X. rewrite X in E by auto. discriminate.
      * split; [discriminate|]. cbn [hd]. intros (_ & _ & HN & _). pose proof (proj2 (check_connect_in z prev x z false HP PX)) as X. rewrite X in E by auto. discriminate.
      * split; [discriminate|]. cbn [hd]. intros (_ & _ & HN & _). pose proof (proj2 (check_connect_in z prev x z false HP PX)) as X. rewrite X in E by auto. discriminate.
    + rewrite check_connect_out by auto. cbn [rbind]. rewrite IH; [cbn [hd links]; tauto|discriminate|auto|intros; apply HR; right; auto].
Qed.

Lemma exact_range : forall n, types_ok n -> Forall (fun t => 0 <= t < 65536) (node_types n true).
Proof.
  intros n H. unfold node_types. rewrite !Forall_app. unfold types_ok in H. rewrite Forall_forall in H. split; [|split].
  - apply Forall_forall. intros t Ht. destruct (n_deleg n); [apply filter_In in Ht; destruct Ht as [Ht _]|]; apply H in Ht; tauto.
  - match goal with |- Forall _ (if ?b then _ else _) => destruct b end; repeat constructor; unfold T_NSEC; lia.
  - match goal with |- Forall _ (if ?b then _ else _) => destruct b end; repeat constructor; unfold T_RRSIG; lia.
Qed.
Lemma existsb_in : forall t l, existsb (Z.eqb t) l = true <-> In t l.
Proof. intros t l. rewrite existsb_exists. split; [intros (x & X & Y); assert (t = x) by lia; subst; auto|]. intros H. exists t. split; auto. lia. Qed.
Lemma isnil_neg : forall {A} (l : list A), negb (isnil l) = true <-> l <> [].
Proof. intros A [|x l]; cbn [isnil negb]; split; congruence. Qed.
Lemma exact_in : forall n t, In t (node_types n true) <-> present n t.
Proof.
  intros n t. unfold node_types, present. cbn [andb]. rewrite !in_app_iff.
  assert (A : In t (if n_deleg n then filter at_deleg (n_types n) else n_types n) <-> In t (n_types n) /\ (n_deleg n = true -> t = 2 \/ t = 43)).
  { destruct (n_deleg n); [|intuition discriminate]. rewrite filter_In. unfold at_deleg, T_NS, T_DS. rewrite orb_true_iff, !Z.eqb_eq. tauto. }
  assert (B : In t (if negb (isnil (n_nsec n)) then [T_NSEC] else []) <-> t = 47 /\ n_nsec n <> []).
  { rewrite <- isnil_neg. destruct (negb (isnil (n_nsec n))); cbn [In]; unfold T_NSEC; split; intros; intuition (try lia; try discriminate). }
  assert (C : In t (if negb (isnil (n_sigs n)) && (negb (n_deleg n) || existsb (Z.eqb T_DS) (n_sigs n) || existsb (Z.eqb T_NSEC) (n_sigs n)) then [T_RRSIG] else []) <-> t = 46 /\ n_sigs n <> [] /\ (n_deleg n = true -> In 43 (n_sigs n) \/ In 47 (n_sigs n))).
  { rewrite <- isnil_neg, <- (existsb_in 43), <- (existsb_in 47). clear A B. change T_DS with 43. change T_NSEC with 47. change T_RRSIG with 46. destruct (negb (isnil (n_sigs n))), (n_deleg n), (existsb (Z.eqb 43) (n_sigs n)), (existsb (Z.eqb 47) (n_sigs n)); cbn [negb andb orb In]; intuition (try lia; try discriminate). }
  rewrite A, B, C. tauto.
Qed.
Lemma check_bitmap_iff : forall n, types_ok n -> (check_nsec_bitmap (Some n) = Ok tt <->
  (has_rrsets n = false -> n_nsec n = []) /\ (has_rrsets n = true -> exists s, n_nsec n = [s] /\ bitmap_wire (node_types n true) = Ok (ns_bitmap s))).
Proof.
  intros n TO. assert (has_rrsets n = negb (n_nonauth n || no_rrsets n)) as -> by (unfold has_rrsets; symmetry; apply negb_orb). unfold check_nsec_bitmap, node_no_nsec. destruct (n_nonauth n || no_rrsets n) eqn:E; cbn [negb andb]; rewrite ?andb_false_r, ?andb_true_r.
  - destruct (n_nsec n) as [|s ss]; cbn [isnil negb].
    + split; [|auto]. intros _. split; [auto|intros X; discriminate X].
    + split; [intros X; discriminate X|]. intros [H _]. specialize (H eq_refl). discriminate H.
  - destruct (wire_ok _ (exact_range n TO)) as (w & W & _). rewrite W. cbn [rbind]. destruct (n_nsec n) as [|s [|s2 ss]] eqn:EN; cbn [length Nat.eqb negb isnil].
    + split; [discriminate|]. intros [_ H]. destruct (H eq_refl) as (s & X & _). discriminate.
    + destruct (octets_eqb w (ns_bitmap s)) eqn:EQ.
      * apply octets_eqb_spec in EQ. subst. split; auto. intros _. split; [discriminate|]. intros _. exists s. auto.
      * split; [discriminate|]. intros [_ H]. destruct (H eq_refl) as (s' & X & Y). injection X as <-. injection Y as Y. rewrite (proj2 (octets_eqb_spec w (ns_bitmap s)) Y) in EQ. discriminate.
    + split; [discriminate|]. intros [_ H]. destruct (H eq_refl) as (s' & X & _). discriminate.
Qed.
Lemma apply_all_iff : forall f l, apply_all f l = Ok tt <-> forall x, In x l -> f x = Ok tt.
Proof.
  induction l as [|x l IH]; cbn [apply_all In]; [split; auto; intros _ x []|]. destruct (f x) as [[]| | |] eqn:E; cbn [rbind].
  - rewrite IH. split; [intros H y [<- | Hy]; auto|intros H y Hy; apply H; auto].
  - split; [discriminate|]. intros H. rewrite H in E by auto. discriminate.
  - split; [discriminate|]. intros H. rewrite H in E by auto. discriminate.
  - split; [discriminate|]. intros H. rewrite H in E by auto. discriminate.
Qed.
Lemma apex_part : forall apex z, a_zone apex z -> part z apex = true /\ exists rest, map fst z = apex :: rest.
Proof.
  intros apex z (S & (n & rest & -> & T) & _). split; [|cbn [map fst]; eauto]. apply part_get. exists n. cbn [nget]. rewrite eqb_refl. split; auto. destruct (takes_true _ T) as [A B]. unfold has_rrsets, no_rrsets. rewrite A. destruct (n_types n); [congruence|auto].
Qed.
Lemma check_chain_iff : forall apex z, a_zone apex z -> (nsec_check_chain z = Ok tt <->
  (forall x, In x (map fst z) -> check_nsec_bitmap (nget z x) = Ok tt) /\ links (nxt z) (participants z) apex).
Proof.
  intros apex z AZ. destruct (apex_part _ _ AZ) as (PA & rest & MN). destruct AZ as (S & _ & _). unfold nsec_check_chain, chain_iterate_create.
  assert (PF : participants z = apex :: filter (part z) rest) by (rewrite (participants_filter z S), MN; cbn [filter]; rewrite PA; auto).
  assert (CL := fun z' sk => check_loop z apex PA rest apex apex false z' sk (fun _ => eq_refl)). rewrite MN, PF.
  assert (H1 : nget z apex <> None) by (apply nget_names; rewrite MN; left; auto). assert (H2 : forall x, In x rest -> nget z x <> None) by (intros; apply nget_names; rewrite MN; right; auto).
  rewrite <- apply_all_iff. destruct (apply_all (fun x => check_nsec_bitmap (nget z x)) (apex :: rest)) as [[]| | |]; cbn [rbind]; try (split; [discriminate|intros [X _]; discriminate]).
  destruct (create_loop check_connect z apex apex apex false rest) as [[z1 s1]| | |] eqn:E; cbn [rbind].
  - destruct (proj1 (CL z1 s1 H1 H2) eq_refl) as (-> & -> & L). tauto.
  - split; [discriminate|]. intros [_ L]. assert (Err e = Ok (z, false)) by (apply CL; auto). discriminate.
  - split; [discriminate|]. intros [_ L]. assert (UB = Ok (z, false)) by (apply CL; auto). discriminate.
  - split; [discriminate|]. intros [_ L]. assert (OOF = Ok (z, false)) by (apply CL; auto). discriminate.
Qed.
Lemma links_valid : forall apex z, a_zone apex z -> (forall x, In x (map fst z) -> check_nsec_bitmap (nget z x) = Ok tt) -> links (nxt z) (participants z) apex -> valid_chain z.
Proof.
  intros apex z AZ B L. destruct (a_zone_facts _ _ AZ) as (S & _ & _ & TY & _). destruct (apex_part _ _ AZ) as (PA & rest & MN). split.
  - intros x n HI HR. assert (E : nget z x = Some n) by (apply nget_in; auto). assert (HX : In x (map fst z)) by (apply nget_names; congruence). specialize (B x HX). rewrite E in B. apply check_bitmap_iff in B; [|eauto]. destruct B as [_ B]. destruct (B HR) as (s & B1 & B2).
    exists s. split; auto. split.
    + apply (links_follows (nxt z) (participants z) apex); auto; [apply nxt_fun| | |exists n, s; auto].
      * rewrite (participants_filter z S), MN. cbn [filter]. rewrite PA. auto.
      * apply participants_in; auto. apply part_get. eauto.
    + destruct (wire_ok _ (exact_range n (TY _ _ E))) as (w & W & LI). assert (w = ns_bitmap s) by congruence. subst. intros t Ht. destruct (LI t Ht) as (r & R1 & R2). exists r. split; auto. rewrite R2. apply exact_in.
  - intros x n HI HR. assert (E : nget z x = Some n) by (apply nget_in; auto). assert (HX : In x (map fst z)) by (apply nget_names; congruence). specialize (B x HX). rewrite E in B. apply check_bitmap_iff in B; [|eauto]. apply B; auto.
Qed.

(** * Incremental validation *)
Lemma prev_follows : forall z x p, sorted (map fst z) -> In x (participants z) -> nsec_prev z x = Ok p -> follows (participants z) p x.
Proof.
  intros z x p S HX E. unfold nsec_prev in E. change (auth_names z) with (participants z) in E. assert (SP : sorted (participants z)) by (apply (fnames_sorted has_rrsets); auto).
  assert (SS' : participants z = filter (fun y => name_ltb y x) (participants z) ++ x :: filter (fun y => name_ltb x y) (participants z)).
  { rewrite <- ge_in by auto. apply (sorted_split (fun y => name_ltb y x)); auto. intros u v H. rewrite !ltb_spec. intros. eapply clt_trans; eauto. }
  destruct (filter (fun y => name_ltb y x) (participants z)) as [|a l] eqn:EF.
  - cbn [last_opt app] in *. destruct (last_split (participants z)) as (A & q & EQ); [intros X; rewrite X in HX; destruct HX|]. rewrite EQ, last_opt_app in E. assert (q = p).
    { destruct (nget z q) as [m|]; [|discriminate]. destruct (empty_nsec_and_rrsigs m); [discriminate|]. congruence. }
    subst q. right. split; eauto.
  - destruct (last_split (a :: l)) as (A & q & EQ); [discriminate|]. rewrite EQ, last_opt_app in E. assert (q = p).
    { destruct (nget z q) as [m|]; [|discriminate]. destruct (empty_nsec_and_rrsigs m); [discriminate|]. congruence. }
    subst q. left. rewrite EQ in SS'. rewrite <- app_assoc in SS'. cbn [app] in SS'. eauto.
Qed.
Lemma follows_in : forall {A} (l : list A) x y, follows l x y -> In x l /\ In y l.
Proof.
  intros A l x y [(p & q & ->)|[(p & E1) (q & E2)]].
  - rewrite !in_app_iff. cbn [In]. auto.
  - split; [rewrite E1; apply in_app_iff; right; left; auto|rewrite E2; left; auto].
Qed.
Lemma follows_succ : forall (R : nm -> nm -> Prop) l e, hd e l = e -> (forall x y, follows l x y -> R x y) -> links R l e.
Proof.
  intros R l e He H. assert (G : forall a b, l = a ++ b -> links R b e); [|apply (G [] l); auto]. intros a b. revert a. induction b as [|x b IH]; intros a E; cbn [links]; auto. split; [|apply (IH (a ++ [x])); rewrite <- app_assoc; auto].
  apply H. destruct b as [|y b]; cbn [hd]; [|left; eauto]. right. split; eauto. destruct l as [|w l]; [destruct a; discriminate|]. cbn [hd] in He. subst. eauto.
Qed.
Lemma follows_fun : forall (l : list nm) x y y', NoDup l -> follows l x y -> follows l x y' -> y = y'.
Proof.
  intros l x y y' ND F F'. destruct l as [|e l0] eqn:EL; [apply follows_in in F; destruct F as [[] _]|]. rewrite <- EL in *. 
  assert (He : hd e l = e) by (rewrite EL; auto). destruct (follows_in _ _ _ F) as [Hx _].
  assert (G : forall z, follows l x z -> forall p q, l = p ++ x :: q -> z = hd e q).
  { intros z [(p' & q' & E)|[(p' & E) (q' & E2)]] p q E0.
    - rewrite E0 in E. rewrite E0 in ND. clear - ND E. revert p ND E. induction p' as [|v p' IH]; intros [|u p] ND E; cbn [app] in *.
      + injection E as ->. auto.
      + injection E as -> E. apply NoDup_cons_iff in ND. exfalso. apply (proj1 ND). apply in_app_iff. right; left; auto.
      + injection E as -> ->. apply NoDup_cons_iff in ND. exfalso. apply (proj1 ND). apply in_app_iff. right; left; auto.
      + injection E as -> E. apply NoDup_cons_iff in ND. eapply IH; [|eauto]. tauto.
    - assert (q = []) as ->.
      { rewrite E0 in E. rewrite E0 in ND. clear - ND E. revert p ND E. induction p' as [|v p' IH]; intros [|u p] ND E; cbn [app] in *.
        - injection E as ->. auto.
        - injection E as -> E. destruct p; discriminate.
        - injection E as -> E. apply NoDup_cons_iff in ND. exfalso. apply (proj1 ND). rewrite E. apply in_app_iff. right; left; auto.
        - injection E as -> E. apply NoDup_cons_iff in ND. apply (IH p); tauto. }
      cbn [hd]. congruence. }
  apply in_split in Hx. destruct Hx as (p & q & E). rewrite (G y F p q E), (G y' F' p q E). auto.
Qed.
Lemma follows_inj : forall (l : list nm) x x' y, NoDup l -> follows l x y -> follows l x' y -> x = x'.
Proof.
  intros l x x' y ND F F'. destruct F as [(p & q & E)|[(p & E) (q & E2)]]; destruct F' as [(p' & q' & E')|[(p' & E') (q' & E2')]].
  - rewrite E in E'. rewrite E in ND. clear - ND E'. revert p' ND E'. induction p as [|v p IH]; intros [|u p'] ND E'; cbn [app] in *.
    + congruence.
    + injection E' as -> E'. exfalso. apply NoDup_cons_iff in ND. destruct ND as [_ ND]. destruct p' as [|w p']; cbn [app] in E'; injection E' as -> ->.
      * apply NoDup_cons_iff in ND. apply (proj1 ND). left; auto.
      * apply NoDup_cons_iff in ND. apply (proj1 ND). apply in_app_iff. right; right; left; auto.
    + injection E' as -> E'. exfalso. destruct p as [|w p]; cbn [app] in *; injection E' as E1 E2; subst.
      * apply NoDup_cons_iff in ND. destruct ND as [_ ND]. apply NoDup_cons_iff in ND. apply (proj1 ND). left; auto.
      * apply NoDup_cons_iff in ND. destruct ND as [_ ND]. apply NoDup_cons_iff in ND. apply (proj1 ND). apply in_app_iff. right; right; left; auto.
    + injection E' as -> E'. apply NoDup_cons_iff in ND. eapply IH; [|eauto]. tauto.
  - exfalso. rewrite E in E2'. rewrite E in ND. destruct p as [|v p]; cbn [app] in *; injection E2' as -> _; apply NoDup_cons_iff in ND; apply (proj1 ND); [left; auto|]. apply in_app_iff. right; right; left; auto.
  - exfalso. rewrite E' in E2. rewrite E' in ND. destruct p' as [|v p']; cbn [app] in *; injection E2 as -> _; apply NoDup_cons_iff in ND; apply (proj1 ND); [left; auto|]. apply in_app_iff. right; right; left; auto.
  - rewrite E in E'. apply app_inj_tail in E'. tauto.
Qed.
