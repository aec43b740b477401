(** C69: the reverse index of additional names is right after every update, and the nodes found with it. *)
From Verif Require Import Base LmdbModel LmdbProofs AddsModel AddsSpec AddsProofs AddsProofs2 AddsProofs3.

(** After any history, looking up a name gives exactly the nodes that mention it or have it as the name of their NSEC3,
    each once. *)
Theorem c69_index : forall c t n l t', history c (Some t) -> null_free_name n -> reverse_apply t n = (l, t') ->
  NoDup l /\ forall x, In x l <-> refers c x n.
Proof.
  intros c t n l t' H Hn E. destruct (history_inv _ _ H) as [HZ Ht]. destruct (reverse_apply_inv _ _ _ _ _ (Ht t eq_refl) E) as (_ & A & B).
  split; auto. intros x. rewrite B. unfold holds. split; [|intros R; exists n; auto]. intros (m & R & K).
  apply key_inj in K; [subst; auto|auto|]. destruct HZ as (_ & _ & _ & Z4 & _). eauto.
Qed.

(** Name [n] depends on the node with owner [o]: it is its name, or the node is a wildcard beside or above it. *)
Definition depends (n o : name) : Prop := (exists e, o = [42] :: e /\ under n e) \/ ((forall e, o <> [42] :: e) /\ n = o).

Lemma wildcard_case : forall o, (is_wildcard o = true /\ exists e, o = [42] :: e) \/ (is_wildcard o = false /\ forall e, o <> [42] :: e).
Proof.
  intros [|l o]; [right; split; [auto|discriminate]|]. destruct (list_eq_dec Z.eq_dec l [42]) as [->|N]; [left; split; [auto|exists o; auto]|].
  right. split; [|intros e H; inversion H; auto]. unfold is_wildcard. destruct l as [|b [|? ?]]; auto; destruct b; auto; repeat (destruct p; auto); exfalso; auto.
Qed.
Lemma hit_depends : forall c x o, zone_ok c -> null_free_name o -> (hit (holds c) x o <-> exists n, refers c x n /\ depends n o).
Proof.
  intros c x o HZ Ho. destruct HZ as (_ & _ & _ & Z4 & _). unfold hit, holds. destruct (wildcard_case o) as [[-> (e & ->)]|[-> Hne]].
  - cbn [tl]. assert (He : null_free_name e) by (inversion Ho; auto). split.
    + intros (r & Hr & n & R & K). exists n. split; auto. left. exists e. split; auto.
      destruct (proj1 (key_prefix e n He (Z4 x n R)) (ex_intro _ r (eq_sym K))) as (p & ->). exists p. split; auto. intros ->.
      apply Hr. apply (app_inv_head (key e)). simpl in K. rewrite app_nil_r. auto.
    + intros (n & R & [(e' & E & p & Hp & ->)|[N _]]); [|exfalso; apply (N e); auto]. inversion E; subst e'.
      destruct (proj2 (key_prefix e (p ++ e) He (Z4 x _ R)) (ex_intro _ p eq_refl)) as (r & K). exists r. split.
      * intros ->. rewrite app_nil_r in K. apply key_inj in K; [|eauto|auto]. apply Hp. apply (app_inv_tail e). auto.
      * exists (p ++ e). auto.
  - split.
    + intros (n & R & K). apply key_inj in K; [|auto|eauto]. subst. exists n. split; auto. right. auto.
    + intros (n & R & [(e & E & _)|[_ ->]]); [exfalso; apply (Hne e); auto|]. exists o. auto.
Qed.

(** An update whose allocations succeed does not fail, gives the index for the new zone, and finds exactly the nodes that
    refer to a name depending on a touched node. *)
Theorem c69_update : forall al old new t nsec3change ptrs, history old t -> zone_ok new -> updated old new ptrs ->
  (nsec3change = false -> c_nsec3 new = c_nsec3 old) -> no_failure al ->
  exists vis t', incremental al t nsec3change old new ptrs = Ok (vis, t') /\ history new (Some t') /\
    forall x, In x vis <-> exists p n, In p ptrs /\ refers new x n /\ depends n (v_owner (c_at new p)).
Proof.
  intros al old new t b ptrs H HN HU Hb HA. destruct (history_inv _ _ H) as [HO Ht].
  destruct (incremental_inv al old new t b ptrs Ht HO HN HU Hb HA) as (vis & t' & E & I & V). exists vis, t'. split; auto. split; [eapply h_update; eauto|].
  intros x. rewrite V. assert (HF : forall p, null_free_name (v_owner (c_at new p))) by (destruct HN as (_ & _ & _ & _ & X & _); auto). split.
  - intros (p & Hp & X). apply hit_depends in X; auto. destruct X as (n & R & D). exists p, n. auto.
  - intros (p & n & Hp & R & D). exists p. split; auto. apply hit_depends; auto. exists n. auto.
Qed.

(** [ex] tells which names have nodes *)
Definition names_of (c : contents) (ex : name -> bool) : Prop :=
  forall n, ex n = true <-> exists y, In y (c_nodes c) /\ v_owner (c_at c y) = n.

Lemma untouched_name : forall old new ptrs exo exn n, zone_ok old -> zone_ok new -> updated old new ptrs -> names_of old exo -> names_of new exn ->
  (forall p, In p ptrs -> v_owner (c_at new p) <> n) -> exo n = exn n.
Proof.
  intros old new ptrs exo exn n (_ & O2 & _) (_ & N2 & _) (U1 & U2 & U3 & U4 & _) Ho Hn Hp. apply eq_true_iff_eq. rewrite (Ho n), (Hn n). split.
  - intros (y & Hy & E). assert (Hi : ~ In y ptrs). { intros I. apply (Hp y I). rewrite U4. auto. }
    exists y. rewrite (U3 y Hi). split; auto. rewrite N2, (U3 y Hi), <- O2. auto.
  - intros (y & Hy & E). assert (Hi : ~ In y ptrs). { intros I. apply (Hp y I). auto. }
    exists y. rewrite <- (U3 y Hi). split; auto. rewrite O2, <- (U3 y Hi), <- N2. auto.
Qed.
Lemma encloser_same : forall exo exn n, (forall p a, n = p ++ a -> exo a = exn a) -> encloser exo n = encloser exn n.
Proof.
  induction n as [|l n IH]; intros H; cbn [encloser]; rewrite (H [] _ eq_refl); [auto|]. rewrite IH; auto. intros p a ->. apply (H (l :: p)). auto.
Qed.
Lemma encloser_suffix : forall ex n e, encloser ex n = Some e -> exists p, n = p ++ e.
Proof.
  induction n as [|l n IH]; intros e H; cbn [encloser] in H.
  - destruct (ex []); inversion H; subst. exists []. auto.
  - destruct (ex (l :: n)); [inversion H; subst; exists []; auto|]. destruct (IH e H) as (p & ->). exists (l :: p). auto.
Qed.
Lemma encloser_ex : forall ex n e, encloser ex n = Some e -> ex e = true.
Proof. induction n as [|l n IH]; intros e H; cbn [encloser] in H; destruct (ex _) eqn:E; try discriminate; try (inversion H; subst; auto; fail); auto. Qed.

(** A node that is not found keeps the addresses its names had: for every name it mentions, the node of the name, or the
    wildcard for it, is the one of before. The missing part: no name above the mentioned one appears or disappears. *)
Theorem c69_additionals_partial : forall al old new t nsec3change ptrs vis t' exo exn x n,
  history old t -> zone_ok new -> updated old new ptrs -> (nsec3change = false -> c_nsec3 new = c_nsec3 old) -> no_failure al ->
  incremental al t nsec3change old new ptrs = Ok (vis, t') -> names_of old exo -> names_of new exn ->
  mentions new x n -> ~ In x vis ->
  (forall a, under n a -> exo a = exn a) ->
  node_or_wildcard exo n = node_or_wildcard exn n.
Proof.
  intros al old new t b ptrs vis t' exo exn x n H HN HU Hb HA E Ho Hn Hm Hv Hu. destruct (history_inv _ _ H) as [HO _].
  destruct (c69_update al old new t b ptrs H HN HU Hb HA) as (vis' & t'' & E' & _ & V). assert (vis' = vis) by congruence. subst vis'.
  assert (D : forall p, In p ptrs -> ~ depends n (v_owner (c_at new p))).
  { intros p Hp X. apply Hv. apply V. exists p, n. split; auto. split; auto. left; auto. }
  assert (S : exo n = exn n).
  { destruct (wildcard_case n) as [[_ (e & ->)]|[_ Hne]].
    - apply (untouched_name old new ptrs exo exn _ HO HN HU Ho Hn). intros p Hp X. apply (D p Hp). rewrite X. left. exists e. split; auto. exists [[42]]. split; [discriminate|auto].
    - apply (untouched_name old new ptrs exo exn _ HO HN HU Ho Hn). intros p Hp X. apply (D p Hp). rewrite X. right. auto. }
  unfold node_or_wildcard. rewrite <- S. destruct (exo n) eqn:EN; auto.
  assert (F : encloser exo n = encloser exn n).
  { apply encloser_same. intros p a ->. destruct p as [|l p]; [simpl in *; congruence|]. apply Hu. exists (l :: p). split; [discriminate|auto]. }
  rewrite <- F. destruct (encloser exo n) as [e|] eqn:EE; auto.
  assert (W : exo ([42] :: e) = exn ([42] :: e)); [|rewrite W; auto].
  apply (untouched_name old new ptrs exo exn _ HO HN HU Ho Hn). intros p Hp X. apply (D p Hp). rewrite X. left. exists e. split; auto.
  destruct (encloser_suffix _ _ _ EE) as (q & Eq). exists q. split; auto. intros ->. simpl in Eq. subst. apply encloser_ex in EE. congruence.
Qed.

(** ** A zone x. with m.x. MX b.a.x. and *.x.; then a.x. is added. *)
Definition c69_al : alloc := mkalloc (fun _ => true) (fun _ _ => true).
Definition nX : name := [[120]].
Definition nM : name := [[109]; [120]].
Definition nA : name := [[97]; [120]].
Definition nBA : name := [[98]; [97]; [120]].
Definition nW : name := [[42]; [120]].
Definition own (x : Z) : name := if x =? 1 then nX else if x =? 2 then nM else if x =? 3 then nW else if x =? 4 then nA else [[122]; [120]].
Definition c69_mx : list rr := [mkrr 15 100 [nBA]].
Definition c69_old : contents := mkcont nX None [1; 2; 3]
  (fun x => mkver (own x) (negb ((1 <=? x) && (x <=? 3))) (if x =? 2 then 20 else x) (if x =? 2 then c69_mx else [])).
Definition c69_new : contents := mkcont nX None [1; 2; 3; 4]
  (fun x => mkver (own x) (negb ((1 <=? x) && (x <=? 4))) (if x =? 2 then 20 else x) (if x =? 2 then c69_mx else [])).
Definition c69_after : contents := mkcont nX None [1; 2]
  (fun x => mkver (own x) (negb ((1 <=? x) && (x <=? 2))) (if x =? 2 then 20 else x) (if x =? 2 then c69_mx else [])).

Lemma own_free : forall x, null_free_name (own x).
Proof. intros x. unfold own. repeat (destruct (_ =? _); [repeat (constructor; try discriminate)|]). repeat (constructor; try discriminate). Qed.
Lemma c69_ok : forall k, 2 <= k <= 4 -> forall l, NoDup l -> (forall x, In x l <-> 1 <= x <= k) -> zone_ok (mkcont nX None l
  (fun x => mkver (own x) (negb ((1 <=? x) && (x <=? k))) (if x =? 2 then 20 else x) (if x =? 2 then c69_mx else []))).
Proof.
  intros k Hk l HN Hl. unfold zone_ok. cbn [c_nodes c_at v_deleted v_list v_owner]. repeat apply conj; auto.
  - intros x. rewrite Hl. lia.
  - intros x. destruct (Z.eqb_spec x 2); [subst; lia|auto].
  - intros x n [(H1 & H2 & r & H3 & H4 & H5)|(_ & h & H & _)]; [|discriminate]. cbn [c_at v_list] in H3. destruct (x =? 2); [|destruct H3].
    destruct H3 as [<-|[]]. destruct H5 as [<-|[]]. repeat (constructor; try discriminate).
  - intros x. apply own_free.
  - intros x n _ (_ & h & H & _). discriminate.
  - intros x r r' H H' _. destruct (x =? 2); [|destruct H]. destruct H as [<-|[]]. destruct H' as [<-|[]]. auto.
Qed.
Lemma c69_ok3 : zone_ok c69_old /\ zone_ok c69_new /\ zone_ok c69_after.
Proof.
  repeat apply conj; apply c69_ok; try lia; try (repeat constructor; simpl; intuition lia); intros x; simpl; lia.
Qed.
Lemma c69_step : updated c69_old c69_new [1; 4] /\ updated c69_old c69_after [1; 3].
Proof.
  split; (split; [reflexivity|]; split; [repeat constructor; simpl; intuition lia|]; split;
    [intros x Hx; unfold c69_old, c69_new, c69_after, c_at; f_equal; simpl in Hx; lia|]; split; [reflexivity|]; split; [reflexivity|];
    cbn [c69_old c69_new c69_after c_at v_list]; intros x r r' H H' _ _; destruct (x =? 2); [|destruct H]; destruct H as [<-|[]]; destruct H' as [<-|[]]; auto).
Qed.
Definition c69_t : tree := Eval vm_compute in match from_zone c69_al c69_old with Ok t => t | _ => [] end.
Lemma c69_loaded : history c69_old (Some c69_t).
Proof. eapply (h_load c69_al); [apply c69_ok3|split; auto|reflexivity]. Qed.

(** The wildcard is removed: the node with the MX is found *)
Example c69_example : history c69_old (Some c69_t) /\ zone_ok c69_after /\ updated c69_old c69_after [1; 3] /\
  (exists t, incremental c69_al (Some c69_t) false c69_old c69_after [1; 3] = Ok ([2], t)) /\ fst (reverse_apply c69_t nBA) = [2].
Proof.
  split; [exact c69_loaded|]. split; [apply c69_ok3|]. split; [apply c69_step|]. split; [|reflexivity].
  exists [(key nBA, Arr [2] true)]. vm_compute. reflexivity.
Qed.

Definition ex_of (c : contents) (n : name) : bool := existsb (fun y => name_eqb (v_owner (c_at c y)) n) (c_nodes c).
Lemma ex_of_names : forall c, names_of c (ex_of c).
Proof.
  intros c n. unfold ex_of. rewrite existsb_exists. split; intros (y & H1 & H2); exists y; split; auto; apply name_eqb_eq; auto.
Qed.
(** Without the condition on the names above, the statement is false: a.x. is added, b.a.x. is not covered by *.x. any more,
    but the node that mentions it is not found and keeps the addresses of the wildcard. *)
Theorem c69_encloser_refuted : exists al old new t ptrs vis t' x n,
  history old (Some t) /\ zone_ok new /\ updated old new ptrs /\ c_nsec3 new = c_nsec3 old /\ no_failure al /\
  incremental al (Some t) false old new ptrs = Ok (vis, t') /\ mentions old x n /\ mentions new x n /\ ~ In x vis /\ ~ In x ptrs /\
  node_or_wildcard (ex_of old) n = Some nW /\ node_or_wildcard (ex_of new) n = None.
Proof.
  exists c69_al, c69_old, c69_new, c69_t, [1; 4], [], c69_t, 2, nBA.
  assert (U : under nBA nX) by (exists [[98]; [97]]; split; [discriminate|reflexivity]).
  split; [exact c69_loaded|]. split; [apply c69_ok3|]. split; [apply c69_step|]. split; [reflexivity|]. split; [split; auto|].
  split; [vm_compute; reflexivity|]. split; [|split]; [| |split; [intros []|split; [simpl; lia|split; vm_compute; reflexivity]]].
  - split; [simpl; auto|]. split; [exact U|]. exists (mkrr 15 100 [nBA]). simpl. unfold with_additional. simpl. tauto.
  - split; [simpl; auto|]. split; [exact U|]. exists (mkrr 15 100 [nBA]). simpl. unfold with_additional. simpl. tauto.
Qed.

(** A node that mentions the name of its own NSEC3 loses the second reference with the first (the condition of [zone_ok]) *)
Definition c69_self (n : list rr) (p : Z) : contents := mkcont nX (Some (fun _ => nBA)) [2] (fun x => mkver (own x) (negb (x =? 2)) (if x =? 2 then p else 0) (if x =? 2 then n else [])).
Theorem c69_self_refuted : exists al old new t t' vis l t'',
  no_failure al /\ from_zone al old = Ok t /\ updated old new [2] /\ incremental al (Some t) false old new [2] = Ok (vis, t') /\
  hashed new 2 nBA /\ reverse_apply t' nBA = (l, t'') /\ ~ In 2 l.
Proof.
  exists c69_al, (c69_self c69_mx 20), (c69_self [] 21), [(key nBA, Arr [2; 2] false)], [], [], [], [].
  split; [split; auto|]. split; [vm_compute; reflexivity|]. split.
  - split; [reflexivity|]. split; [repeat constructor; simpl; tauto|]. split; [intros x Hx; unfold c69_self, c_at; simpl in Hx; destruct (Z.eqb_spec x 2); [exfalso; apply Hx; left; auto|auto]|].
    split; [reflexivity|]. split; [intros x; cbn [c69_self c_at v_rrs v_list]; destruct (x =? 2); [discriminate|auto]|].
    intros x r r' H H'. cbn [c69_self c_at v_list] in H'. destruct (x =? 2); destruct H'.
  - split; [vm_compute; reflexivity|]. split; [|split; [reflexivity|intros []]]. split; [left; auto|]. exists (fun _ => nBA). auto.
Qed.

(** A failed growing of an array is not reported and its nodes are lost; a failed allocation of a new structure is reported,
    but freeing the index then reads through a null pointer. *)
Definition c69_three : contents := mkcont nX None [2; 5; 6] (fun x => mkver (own x) (negb ((x =? 2) || (x =? 5) || (x =? 6))) x c69_mx).
Theorem c69_growth_refuted : exists al c t, (forall k, a_new al k = true) /\ from_zone al c = Ok t /\ mentions c 2 nBA /\ mentions c 5 nBA /\ fst (reverse_apply t nBA) = [].
Proof.
  exists (mkalloc (fun _ => true) (fun _ x => negb (x =? 6))), c69_three, [(key nBA, Broken)].
  assert (U : under nBA nX) by (exists [[98]; [97]]; split; [discriminate|reflexivity]).
  split; [auto|]. split; [vm_compute; reflexivity|]. split; [|split; [|vm_compute; reflexivity]];
    (split; [simpl; auto|]; split; [exact U|]; exists (mkrr 15 100 [nBA]); simpl; unfold with_additional; simpl; tauto).
Qed.
Theorem c69_null_refuted : exists al c, zone_ok c /\ (forall k x, a_grow al k x = true) /\ from_zone al c = UB.
Proof. exists (mkalloc (fun _ => false) (fun _ _ => true)), c69_old. split; [apply c69_ok3|]. split; [auto|vm_compute; reflexivity]. Qed.

Print Assumptions c69_index.
Print Assumptions c69_update.
Print Assumptions c69_additionals_partial.
Print Assumptions c69_encloser_refuted.
Print Assumptions c69_self_refuted.
Print Assumptions c69_growth_refuted.
Print Assumptions c69_null_refuted.
