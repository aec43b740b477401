(** The tree structure of zone contents: parents and counters of children. *)
From Verif Require Import Base RdatasetModel RdatasetSpec RdatasetProofs RdatasetProps NodeModel NodeProps ZoneModel ZoneProofs ZoneView.

Definition is_child (o x : name) : bool := match x with [] => false | _ :: p => name_eqb p o end.
Definition kids (l : list name) (o : name) : Z := zlen (filter (is_child o) l).
Definition names (z : contents) (k : bool) : list name := map fst (if k then z_nsec3 z else z_nodes z).
(** The node of an owner: the apex is the parent in both trees *)
Definition pk (z : contents) (k : bool) (o : name) : bool := if name_eqb o (z_apex z) then false else k.
Definition cnt (z : contents) (k : bool) (o : name) : Z := if name_eqb o (z_apex z) then kids (names z false) o + kids (names z true) o else kids (names z k) o.
Lemma kids_nonneg : forall l o, 0 <= kids l o. Proof. intros. apply zlen_nonneg. Qed.
Lemma kids_cons : forall x l o, kids (x :: l) o = (if is_child o x then 1 else 0) + kids l o.
Proof. intros. unfold kids. cbn [filter]. destruct (is_child o x); [rewrite zlen_cons|]; lia. Qed.
Lemma kids_app : forall a b o, kids (a ++ b) o = kids a o + kids b o.
Proof. intros. unfold kids. rewrite filter_app, zlen_app. lia. Qed.
Lemma tset_old : forall t o n, In o (map fst t) -> map fst (tset t o n) = map fst t.
Proof. induction t as [|[a m] t IH]; intros o n H; [destruct H|]. cbn [tset map fst]. destruct (name_eqb a o) eqn:E; [auto|]. cbn [map fst]. rewrite IH; auto. destruct H as [H|H]; auto. cbn [fst] in H. subst. rewrite neqb_refl in E. discriminate. Qed.
Lemma tset_new : forall t o n, ~ In o (map fst t) -> map fst (tset t o n) = map fst t ++ [o].
Proof. induction t as [|[a m] t IH]; intros o n H; [auto|]. cbn [tset map fst app]. cbn [map fst In] in H. rewrite neqb_neq by (intros X; apply H; auto). cbn [map fst]. rewrite IH; auto. Qed.
Lemma tdel_kids : forall t o c, NoDup (map fst t) -> In o (map fst t) -> kids (map fst (tdel t o)) c = kids (map fst t) c - (if is_child c o then 1 else 0).
Proof.
  induction t as [|[a m] t IH]; intros o c HN HI; [destruct HI|]. cbn [tdel map fst]. inversion HN as [|? ? N1 N2]; subst. rewrite kids_cons. destruct (name_eqb a o) eqn:E.
  - apply neqb_spec in E. subst. lia.
  - cbn [map fst]. rewrite kids_cons, IH; auto; [lia|]. destruct HI as [HI|HI]; auto. cbn [fst] in HI. subst. rewrite neqb_refl in E. discriminate.
Qed.
Lemma child_spec : forall o x, is_child o x = true <-> exists l, x = l :: o.
Proof. intros o [|l p]; cbn [is_child]; [split; [discriminate|intros (l & [=])]|]. rewrite neqb_spec. split; [intros ->; eauto|intros (l' & [= _ ->]); auto]. Qed.

(** existence *)
Definition ex (z : contents) (k : bool) (o : name) : Prop := ZoneModel.zget z k o <> None.
Lemma ex_names : forall z k o, ex z k o <-> (k = false /\ o = z_apex z) \/ In o (names z k).
Proof.
  intros z k o. unfold ex, ZoneModel.zget, names. destruct k.
  - destruct (tget (z_nsec3 z) o) eqn:E.
    + split; [intros _; right; destruct (in_dec name_dec o (map fst (z_nsec3 z))) as [|N]; auto; apply tget_none in N; congruence|discriminate].
    + apply tget_none in E. split; [intros H; contradiction|]. intros [[H _]|H]; [discriminate|contradiction].
  - destruct (name_eqb o (z_apex z)) eqn:EA; [apply neqb_spec in EA; split; [auto|discriminate]|]. assert (NA : o <> z_apex z) by (intros X; rewrite X, neqb_refl in EA; discriminate). destruct (tget (z_nodes z) o) eqn:E.
    + split; [intros _; right; destruct (in_dec name_dec o (map fst (z_nodes z))) as [|N]; auto; apply tget_none in N; congruence|discriminate].
    + apply tget_none in E. split; [intros H; contradiction|]. intros [[_ H]|H]; contradiction.
Qed.
Lemma names_set_old : forall z k o n k', ex z k o -> names (zset z k o n) k' = names z k'.
Proof.
  intros z k o n k' H. apply ex_names in H. unfold names, zset in *. destruct k.
  - cbn [z_nodes z_nsec3]. destruct k'; auto. destruct H as [[H _]|H]; [discriminate|]. apply tset_old. auto.
  - destruct (name_eqb o (z_apex z)) eqn:E; cbn [z_nodes z_nsec3]; auto. destruct k'; auto. destruct H as [[_ H]|H]; [rewrite H, neqb_refl in E; discriminate|]. apply tset_old. auto.
Qed.
Lemma names_set_new : forall z k o n k', ~ ex z k o -> names (zset z k o n) k' = if Bool.eqb k k' then names z k' ++ [o] else names z k'.
Proof.
  intros z k o n k' H. rewrite ex_names in H. unfold names, zset in *. destruct k.
  - cbn [z_nodes z_nsec3]. destruct k'; cbn [Bool.eqb]; auto. apply tset_new. tauto.
  - destruct (name_eqb o (z_apex z)) eqn:E; cbn [z_nodes z_nsec3]; [apply neqb_spec in E; exfalso; apply H; auto|]. destruct k'; cbn [Bool.eqb]; auto. apply tset_new. tauto.
Qed.
Lemma cnt_old : forall z k o n k' o', ex z k o -> cnt (zset z k o n) k' o' = cnt z k' o'.
Proof. intros. unfold cnt. rewrite zset_apex, !names_set_old by auto. auto. Qed.
Definition chld (z : contents) (k : bool) (x : name) (k' : bool) (o : name) : Z := if is_child o x && (name_eqb o (z_apex z) || Bool.eqb k k') then 1 else 0.
Lemma cnt_new : forall z k o n k' o', ~ ex z k o -> cnt (zset z k o n) k' o' = cnt z k' o' + chld z k o k' o'.
Proof.
  intros z k o n k' o' H. unfold cnt, chld. rewrite zset_apex, !names_set_new by auto. destruct (name_eqb o' (z_apex z)) eqn:E; cbn [orb]; rewrite ?andb_true_r.
  - destruct k; cbn [Bool.eqb]; rewrite kids_app, kids_cons; destruct (is_child o' o); unfold kids; cbn [filter]; rewrite zlen_nil; lia.
  - destruct (Bool.eqb k k'); rewrite ?andb_true_r, ?andb_false_r; [|lia]. rewrite kids_app, kids_cons. destruct (is_child o' o); unfold kids at 2; cbn [filter]; rewrite zlen_nil; lia.
Qed.
Lemma cnt_del : forall z k o k' o', keys_ok z -> In o (names z k) -> cnt (zdel z k o) k' o' = cnt z k' o' - chld z k o k' o'.
Proof.
  intros z k o k' o' (N1 & N2 & _) H. unfold cnt, chld, names, zdel in *. destruct k; cbn [z_apex z_nodes z_nsec3]; destruct (name_eqb o' (z_apex z)) eqn:E; cbn [orb]; rewrite ?andb_true_r; destruct k'; cbn [Bool.eqb]; rewrite ?andb_true_r, ?andb_false_r, ?tdel_kids by auto; lia.
Qed.

(** [Ps]: nodes not counted by their parents yet *)
Definition pend (z : contents) (k : bool) (Ps : list name) (k' : bool) (o : name) : Z := if name_eqb o (z_apex z) || Bool.eqb k k' then kids Ps o else 0.
Record linked (z : contents) (k : bool) (Ps : list name) : Prop := {
  l_keys : keys_ok z;
  l_under : forall k o, ex z k o -> under o (z_apex z) = true;
  l_parent : forall k' l p, ex z k' (l :: p) -> l :: p <> z_apex z -> (k' = k /\ In (l :: p) Ps) \/ ex z (pk z k' p) p;
  l_count : forall k' o n, ZoneModel.zget z k' o = Some n -> zn_children n = cnt z k' o - pend z k Ps k' o;
  l_pend : forall x, In x Ps -> In x (names z k) }.
Lemma pend_le : forall z k Ps k' o, keys_ok z -> NoDup Ps -> (forall x, In x Ps -> In x (names z k)) -> pend z k Ps k' o <= cnt z k' o.
Proof.
  intros z k Ps k' o (N1 & N2 & _) HN HI. unfold pend, cnt. assert (G : kids Ps o <= kids (names z k) o).
  { unfold kids, zlen. apply inj_le. apply NoDup_incl_length; [apply NoDup_filter; auto|]. intros x Hx. apply filter_In in Hx. apply filter_In. destruct Hx. auto. }
  pose proof (kids_nonneg (names z false) o). pose proof (kids_nonneg (names z true) o). destruct (name_eqb o (z_apex z)); cbn [orb]; [destruct k; lia|]. destruct (Bool.eqb k k') eqn:E; [apply eqb_prop in E; subst; lia|]. destruct k'; lia.
Qed.
Lemma pend_cons : forall z k x Ps k' o, pend z k (x :: Ps) k' o = chld z k x k' o + pend z k Ps k' o.
Proof. intros. unfold pend, chld. rewrite kids_cons. destruct (name_eqb o (z_apex z) || Bool.eqb k k'); rewrite ?andb_true_r, ?andb_false_r; destruct (is_child o x); cbn [andb]; lia. Qed.
Lemma pk_set : forall z k o n k' p, pk (zset z k o n) k' p = pk z k' p. Proof. intros. unfold pk. rewrite zset_apex. auto. Qed.
Lemma pend_apex : forall z z' k Ps k' o, z_apex z' = z_apex z -> pend z' k Ps k' o = pend z k Ps k' o. Proof. intros. unfold pend. rewrite H. auto. Qed.
Lemma chld_apex : forall z z' k x k' o, z_apex z' = z_apex z -> chld z' k x k' o = chld z k x k' o. Proof. intros. unfold chld. rewrite H. auto. Qed.
Lemma ex_set : forall z k o n k' o', ex (zset z k o n) k' o' <-> (k = k' /\ o = o') \/ ex z k' o'.
Proof. intros. unfold ex. rewrite zget_set. destruct (here k o k' o') eqn:E; [apply here_spec in E; split; [auto|discriminate]|]. split; auto. intros [H|H]; auto. apply here_spec in H. congruence. Qed.
(** What is not empty: [P] the exceptions *)
Definition filled (z : contents) (P : bool -> name -> Prop) : Prop := forall k o n, ZoneModel.zget z k o = Some n -> P k o \/ o = z_apex z \/ zn_rrs n <> [] \/ 0 < zn_children n.
Lemma add_node_link : forall o z k Ps z' h, linked z k Ps -> NoDup Ps -> (forall x, In x Ps -> (length o < length x)%nat) -> add_node o z k = Ok (z', h) ->
  linked z' k Ps /\ z_apex z' = z_apex z /\ ex z' (fst h) (snd h) /\ h = (pk z k o, o) /\ (forall k' o', ex z k' o' -> ex z' k' o') /\
  (forall k' o' n', ZoneModel.zget z' k' o' = Some n' -> ((k' = k /\ o' = o) \/ 0 < zn_children n') \/ exists n, ZoneModel.zget z k' o' = Some n /\ zn_rrs n' = zn_rrs n /\ zn_children n <= zn_children n').
Proof.
  induction o as [|l p IH]; intros z k Ps z' h HL HN HP E.
  - cbn [add_node] in E. unfold pk. destruct (name_eqb [] (z_apex z)) eqn:EA.
    + injection E as <- <-. split; auto. split; auto. split; [|split; auto; split; auto; intros; right; exists n'; split; auto; split; auto; lia]. unfold ex, ZoneModel.zget. cbn [fst snd]. rewrite EA. discriminate.
    + destruct (negb _); [discriminate|]. destruct (ZoneModel.zget z k []) eqn:EG; [|discriminate]. injection E as <- <-. split; auto. split; auto. split; [unfold ex; cbn [fst snd]; rewrite EG; discriminate|]. split; auto. split; auto. intros; right; exists n'; split; auto; split; auto; lia.
  - cbn [add_node] in E. destruct (name_eqb (l :: p) (z_apex z)) eqn:EA.
    + injection E as <- <-. split; auto. split; auto. split; [|split; [unfold pk; rewrite EA; auto|split; auto; intros; right; exists n'; split; auto; split; auto; lia]]. unfold ex, ZoneModel.zget. cbn [fst snd]. rewrite EA. discriminate.
    + destruct (negb _) eqn:EU; [discriminate|]. apply negb_false_iff in EU. assert (NA : l :: p <> z_apex z) by (intros X; rewrite X, neqb_refl in EA; discriminate). assert (HPK : pk z k (l :: p) = k) by (unfold pk; rewrite EA; auto).
      destruct (ZoneModel.zget z k (l :: p)) as [n0|] eqn:EG.
      { injection E as <- <-. split; auto. split; auto. split; [unfold ex; cbn [fst snd]; rewrite EG; discriminate|]. split; [rewrite HPK; auto|]. split; auto. intros; right; exists n'; split; auto; split; auto; lia. }
      assert (NE : ~ ex z k (l :: p)) by (unfold ex; rewrite EG; auto). set (z0 := zset z k (l :: p) (mkzn [] 0)) in *. assert (A0 : z_apex z0 = z_apex z) by apply zset_apex.
      destruct (add_node p z0 k) as [[z1 [qk qo]]| | |] eqn:E1; cbn [rbind] in E; try discriminate.
      assert (NIP : ~ In (l :: p) Ps). { intros X. apply HP in X. lia. }
      assert (L0 : linked z0 k ((l :: p) :: Ps)).
      { destruct HL as [K U P C Q]. split.
        - apply zset_keys; auto.
        - intros k' o'. unfold z0. rewrite ex_set, zset_apex. intros [[-> <-]|H]; eauto.
        - intros k' l' p' H NA'. unfold z0 in *. rewrite pk_set. rewrite zset_apex in NA'. apply ex_set in H. destruct H as [[-> [= -> ->]]|H]; [left; split; auto; left; auto|]. destruct (P k' l' p' H NA') as [[-> HI]|HE]; [left; split; auto; right; auto|right; apply ex_set; auto].
        - intros k' o' n HG. rewrite pend_cons, (pend_apex z), (chld_apex z) by auto. unfold z0 in *. rewrite cnt_new by auto. rewrite zget_set in HG. destruct (here k (l :: p) k' o') eqn:EH; [|rewrite (C _ _ _ HG); lia]. injection HG as <-. apply here_spec in EH. destruct EH as [<- <-]. cbn [zn_children].
          (* a new node has no children: their parent would be missing *)
          assert (X : cnt z k (l :: p) - pend z k Ps k (l :: p) = 0); [|lia]. unfold cnt, pend. rewrite EA, eqb_reflx. cbn [orb].
          assert (Y : forall x, is_child (l :: p) x = true -> In x (names z k) -> In x Ps). { intros x Hc HI. apply child_spec in Hc. destruct Hc as (l' & ->). destruct (P k l' (l :: p)) as [[_ H]|H]; auto; [apply ex_names; auto| |exfalso; apply NE; rewrite <- HPK; auto]. intros X. destruct K as (_ & _ & KA1 & KA2). unfold names in HI. destruct k; rewrite X in HI; auto. }
          assert (kids (names z k) (l :: p) <= kids Ps (l :: p)). { destruct K as (N1 & N2 & _). unfold kids, zlen. apply inj_le. apply NoDup_incl_length; [apply NoDup_filter; destruct k; auto|]. intros x Hx. apply filter_In in Hx. destruct Hx. apply filter_In. auto. }
          assert (kids Ps (l :: p) <= kids (names z k) (l :: p)). { unfold kids, zlen. apply inj_le. apply NoDup_incl_length; [apply NoDup_filter; auto|]. intros x Hx. apply filter_In in Hx. destruct Hx. apply filter_In. auto. } lia.
        - intros x [<-|Hx]; unfold z0; rewrite names_set_new, eqb_reflx by auto; apply in_or_app; [right; left; auto|left; auto]. }
      apply (IH z0 k ((l :: p) :: Ps)) in E1; [|exact L0|constructor; auto|]. 2:{ intros x [<-|Hx]; [cbn; lia|]. apply HP in Hx. cbn [length] in Hx. lia. }
      destruct E1 as (L1 & A1 & EX1 & EH1 & MO & NEW). cbn [fst snd] in EX1. injection EH1 as -> ->. assert (PKE : pk z0 k p = pk z k p) by apply pk_set. rewrite PKE in *. rewrite A0 in A1.
      destruct (ZoneModel.zget z1 (pk z k p) p) as [pn|] eqn:EG1; [|discriminate]. injection E as <- <-. split; [|split; [rewrite zset_apex; auto|split; [|split; [rewrite HPK; auto|split]]]].
      * destruct L1 as [K U P C Q]. split.
        -- apply zset_keys; auto. unfold pk. destruct (name_eqb p (z_apex z)) eqn:EP; [discriminate|]. intros _ X. rewrite X, A1, neqb_refl in EP. discriminate.
        -- intros k' o'. rewrite ex_set, zset_apex. intros [[<- <-]|H]; [apply (U (pk z k p)); auto|eauto].
        -- intros k' l' p' H NA'. rewrite pk_set. rewrite zset_apex in NA'. assert (H' : ex z1 k' (l' :: p')). { apply ex_set in H. destruct H as [[<- <-]|H]; auto. } destruct (P k' l' p' H' NA') as [[-> [HI|HI]]|HE]; [injection HI as <- <-; right; apply ex_set; right|left; auto|right; apply ex_set; auto]. unfold pk in *. rewrite A1. auto.
        -- assert (EXP : ex z1 (pk z k p) p) by auto. intros k' o' n HG. rewrite cnt_old, (pend_apex z1) by (auto; apply zset_apex). rewrite zget_set in HG. assert (QQ : chld z1 k (l :: p) k' o' = if here (pk z k p) p k' o' || (name_eqb o' (z_apex z) && name_eqb p o') then 1 else 0).
           { unfold chld, here, pk. rewrite A1. cbn [is_child]. destruct (name_eqb p o') eqn:EPO; cbn [andb orb]; rewrite ?andb_true_r, ?andb_false_r; auto. apply neqb_spec in EPO. subst o'. destruct (name_eqb p (z_apex z)); cbn [orb]; [rewrite orb_true_r; auto|]. rewrite orb_false_r. auto. }
           destruct (here (pk z k p) p k' o') eqn:EH.
           ++ injection HG as <-. cbn [zn_children]. apply here_spec in EH. destruct EH as [<- <-]. rewrite (C _ _ _ EG1), pend_cons. rewrite QQ. cbn [orb]. lia.
           ++ rewrite (C _ _ _ HG), pend_cons, QQ. cbn [orb]. destruct (name_eqb o' (z_apex z) && name_eqb p o') eqn:EX2; [|lia]. exfalso. apply andb_true_iff in EX2. destruct EX2 as [EX2 EX3]. apply neqb_spec in EX2, EX3. subst p. unfold here, pk in EH. rewrite EX2, !neqb_refl in EH. destruct k'; [|discriminate]. destruct K as (_ & N2 & _ & KA). unfold ZoneModel.zget in HG. apply tget_in in HG; auto. apply KA. apply in_map_iff. exists (o', n). split; auto. cbn. congruence.
        -- intros x Hx. rewrite names_set_old by auto. apply Q. right. auto.
      * cbn [fst snd]. apply ex_set. right. apply MO. unfold z0. apply ex_set. auto.
      * intros k' o' H. apply ex_set. right. apply MO. unfold z0. apply ex_set. auto.
      * intros k' o' n' HG. rewrite zget_set in HG. destruct (here (pk z k p) p k' o') eqn:EH.
        -- injection HG as <-. apply here_spec in EH. destruct EH as [<- <-]. left. right. cbn [zn_children]. destruct L1 as [K U P C Q]. rewrite (C _ _ _ EG1). pose proof (pend_le z1 k ((l :: p) :: Ps) (pk z k p) p K ltac:(constructor; auto) Q). lia.
        -- destruct (NEW k' o' n' HG) as [[[-> ->]|H]|(n & H1 & H2 & H3)].
           ++ exfalso. unfold here, pk in EH. rewrite neqb_refl, andb_true_r in EH. destruct (name_eqb p (z_apex z)) eqn:EP; [|rewrite eqb_reflx in EH; discriminate]. apply neqb_spec in EP. destruct k; [|discriminate]. destruct L1 as [(_ & N2 & _ & KA) _ _ _ _]. unfold ZoneModel.zget in HG. apply tget_in in HG; auto. apply KA. apply in_map_iff. exists (p, n'). split; auto. cbn. congruence.
           ++ left. right. auto.
           ++ unfold z0 in H1. rewrite zget_set in H1. destruct (here k (l :: p) k' o') eqn:EH2; [apply here_spec in EH2; destruct EH2; left; left; auto|right; exists n; auto].
Qed.

Lemma pend_nil : forall z k k' o, pend z k [] k' o = 0.
Proof. intros. unfold pend, kids. cbn [filter]. rewrite zlen_nil. destruct (_ || _); auto. Qed.
Lemma linked_any : forall z k k', linked z k [] -> linked z k' [].
Proof.
  intros z k k' [K U P C Q]. split; auto.
  - intros k0 l p H1 H2. destruct (P k0 l p H1 H2) as [[_ []]|H]; auto.
  - intros k0 o n H. rewrite (C _ _ _ H), !pend_nil. lia.
  - intros x [].
Qed.
Definition nobody : bool -> name -> Prop := fun _ _ => False.
Definition only (k : bool) (o : name) : bool -> name -> Prop := fun k' o' => k' = k /\ o' = o.
Definition struct (z : contents) : Prop := linked z false [] /\ filled z nobody.
Lemma set_link : forall z k o n rrs j, linked z j [] -> ZoneModel.zget z k o = Some n -> linked (zset z k o (mkzn rrs (zn_children n))) j [].
Proof.
  intros z k o n rrs j [K U P C Q] H. assert (EX : ex z k o) by (unfold ex; rewrite H; discriminate). split.
  - apply zset_keys; auto. intros -> X. destruct K as (_ & N2 & _ & KA). unfold ZoneModel.zget in H. apply tget_in in H; auto. apply KA. apply in_map_iff. exists (o, n). auto.
  - intros k' o'. rewrite ex_set, zset_apex. intros [[<- <-]|E]; eauto.
  - intros k' l p E NA. rewrite pk_set. rewrite zset_apex in NA. assert (E' : ex z k' (l :: p)) by (apply ex_set in E; destruct E as [[<- <-]|E]; auto). destruct (P k' l p E' NA) as [[_ []]|HE]. right. apply ex_set. auto.
  - intros k' o' n' E. rewrite cnt_old, pend_nil by auto. rewrite zget_set in E. destruct (here k o k' o') eqn:EH; [|rewrite (C _ _ _ E), pend_nil; auto]. injection E as <-. apply here_spec in EH. destruct EH as [<- <-]. cbn [zn_children]. rewrite (C _ _ _ H), pend_nil. auto.
  - intros x [].
Qed.
Lemma cnt_nonneg : forall z k o, 0 <= cnt z k o.
Proof. intros. unfold cnt. pose proof (kids_nonneg (names z false) o). pose proof (kids_nonneg (names z true) o). pose proof (kids_nonneg (names z k) o). destruct (name_eqb _ _); lia. Qed.
Lemma get_ex : forall z k o n, ZoneModel.zget z k o = Some n -> ex z k o. Proof. intros z k o n H. unfold ex. rewrite H. discriminate. Qed.
Lemma ex_get : forall z k o, ex z k o -> exists n, ZoneModel.zget z k o = Some n. Proof. intros z k o H. unfold ex in H. destruct (ZoneModel.zget z k o) as [n|]; [eauto|contradiction]. Qed.
Lemma kid_pos : forall l x o, In x l -> is_child o x = true -> 0 < kids l o.
Proof. intros l x o HI HC. assert (H : In x (filter (is_child o) l)) by (apply filter_In; auto). unfold kids. destruct (filter (is_child o) l); [destruct H|]. rewrite zlen_cons. pose proof (zlen_nonneg l0). lia. Qed.
Lemma cnt_pos : forall z k l o, ex z k (l :: o) -> l :: o <> z_apex z -> 0 < cnt z (pk z k o) o.
Proof.
  intros z k l o H NA. apply ex_names in H. destruct H as [[_ H]|H]; [contradiction|]. pose proof (kid_pos _ _ o H (proj2 (child_spec o (l :: o)) (ex_intro _ l eq_refl))) as HP. unfold cnt, pk. pose proof (kids_nonneg (names z false) o). pose proof (kids_nonneg (names z true) o). destruct (name_eqb o (z_apex z)); [destruct k; lia|auto].
Qed.
Lemma pk_self : forall z k o n, linked z false [] -> ZoneModel.zget z k o = Some n -> pk z k o = k.
Proof.
  intros z k o n L H. unfold pk. destruct (name_eqb o (z_apex z)) eqn:E; auto. apply neqb_spec in E. destruct k; auto. destruct L as [(_ & N2 & _ & KA) _ _ _ _]. unfold ZoneModel.zget in H. apply tget_in in H; auto. exfalso. apply KA. rewrite <- E. apply in_map_iff. exists (o, n). auto.
Qed.
Lemma del_node_link : forall o z k n, linked z false [] -> filled z (only k o) -> o <> z_apex z -> ZoneModel.zget z k o = Some n -> zn_rrs n = [] -> zn_children n = 0 -> struct (del_node o z k).
Proof.
  induction o as [|l p IH]; intros z k n L F NA G HR HC.
  - exfalso. destruct L as [_ U _ _ _]. pose proof (U k [] (get_ex _ _ _ _ G)) as H. cbn [under] in H. rewrite orb_false_r in H. apply neqb_spec in H. auto.
  - cbn [del_node]. cbv zeta. rewrite zdel_apex. fold (pk z k p). pose proof L as [K U P C Q]. assert (EXO : ex z k (l :: p)) by (eapply get_ex; eauto). assert (INO : In (l :: p) (names z k)) by (apply ex_names in EXO; destruct EXO as [[_ H]|H]; [contradiction|auto]).
    destruct (P k l p EXO NA) as [[_ []]|EXP]. apply ex_get in EXP. destruct EXP as (pn & GP). set (z0 := zdel z k (l :: p)) in *. assert (K0 : keys_ok z0) by (apply zdel_keys; auto). assert (A0 : z_apex z0 = z_apex z) by apply zdel_apex.
    assert (G0 : forall k' o', ZoneModel.zget z0 k' o' = if here k (l :: p) k' o' then None else ZoneModel.zget z k' o') by (intros; apply zget_del; auto).
    assert (HH : here k (l :: p) (pk z k p) p = false). { unfold here. rewrite (neqb_neq (l :: p) p); [apply andb_false_r|]. intros X. apply (f_equal (@length _)) in X. cbn in X. lia. }
    rewrite G0, HH, GP. set (pn' := mkzn (zn_rrs pn) (zn_children pn - 1)). set (z1 := zset z0 (pk z k p) p pn'). assert (A1 : z_apex z1 = z_apex z) by (unfold z1; rewrite zset_apex; auto).
    assert (CP : zn_children pn = cnt z (pk z k p) p) by (rewrite (C _ _ _ GP), pend_nil; lia). pose proof (cnt_pos z k l p EXO NA) as CPP.
    assert (EXP0 : ex z0 (pk z k p) p) by (unfold ex; rewrite G0, HH, GP; discriminate).
    assert (CN : forall k' o', cnt z1 k' o' = cnt z k' o' - chld z k (l :: p) k' o'). { intros. unfold z1. rewrite cnt_old by auto. unfold z0. apply cnt_del; auto. }
    assert (L1 : linked z1 false []).
    { split.
      - unfold z1. apply zset_keys; auto. rewrite A0. unfold pk. destruct (name_eqb p (z_apex z)) eqn:EP; [discriminate|]. intros _ X. rewrite X, neqb_refl in EP. discriminate.
      - intros k' o'. rewrite A1. unfold z1. rewrite ex_set. intros [[<- <-]|H]; [eapply U; eapply get_ex; eauto|]. unfold ex in H. rewrite G0 in H. destruct (here k (l :: p) k' o'); [exfalso; apply H; auto|]. eapply U; eauto.
      - intros k' l' p' H NA'. right. unfold z1 in *. rewrite pk_set. rewrite A1 in NA'. assert (H' : ex z k' (l' :: p') /\ here k (l :: p) k' (l' :: p') = false). { apply ex_set in H. destruct H as [[<- X]|H]; [subst; split; [eapply get_ex; eauto|auto]|]. unfold ex in H. rewrite G0 in H. destruct (here k (l :: p) k' (l' :: p')); [exfalso; apply H; auto|auto]. }
        destruct H' as [H' HN]. destruct (P k' l' p' H' NA') as [[_ []]|HE]. apply ex_set. right. unfold pk in *. rewrite A0. unfold ex. rewrite G0. destruct (here k (l :: p) _ p') eqn:EH; auto. apply here_spec in EH. destruct EH as [EK <-]. rewrite (neqb_neq _ _ NA) in *. subst k'. exfalso. pose proof (cnt_pos z k l' (l :: p) H' NA') as X. unfold pk in X. rewrite (neqb_neq _ _ NA) in X. rewrite (C _ _ _ G), pend_nil in HC. lia.
      - intros k' o' n' H. rewrite pend_nil, CN. unfold z1 in H. rewrite zget_set in H. destruct (here (pk z k p) p k' o') eqn:EH.
        + injection H as <-. apply here_spec in EH. destruct EH as [<- <-]. cbn [zn_children pn']. rewrite CP. assert (X : chld z k (l :: p) (pk z k p) p = 1); [|lia]. unfold chld, pk. cbn [is_child]. rewrite neqb_refl. destruct (name_eqb p (z_apex z)); cbn [andb orb]; auto. rewrite eqb_reflx. auto.
        + rewrite G0 in H. destruct (here k (l :: p) k' o') eqn:EH2; [discriminate|]. rewrite (C _ _ _ H), pend_nil. assert (X : chld z k (l :: p) k' o' = 0); [|lia]. unfold chld. cbn [is_child]. destruct (name_eqb p o') eqn:EPO; auto. apply neqb_spec in EPO. subst o'. cbn [andb]. unfold here, pk in EH. rewrite neqb_refl, andb_true_r in EH. destruct (name_eqb p (z_apex z)) eqn:EP; cbn [orb]; [|rewrite EH; auto]. destruct k'; [|discriminate]. exfalso. apply neqb_spec in EP. pose proof (pk_self z true p n' L H) as X. unfold pk in X. rewrite EP, neqb_refl in X. discriminate.
      - intros x []. }
    assert (CN' : zn_children pn - 1 = cnt z1 (pk z k p) p). { destruct L1 as [_ _ _ C1 _]. assert (GZ : ZoneModel.zget z1 (pk z k p) p = Some pn') by (unfold z1; rewrite zget_set; rewrite (proj2 (here_spec _ _ _ _)); auto). specialize (C1 _ _ _ GZ). rewrite pend_nil in C1. cbn [zn_children pn'] in C1. lia. }
    pose proof (cnt_nonneg z1 (pk z k p) p) as CNN.
    assert (F1 : forall k' o' n', ZoneModel.zget z1 k' o' = Some n' -> (k' = pk z k p /\ o' = p) \/ o' = z_apex z1 \/ zn_rrs n' <> [] \/ 0 < zn_children n').
    { intros k' o' n' H. rewrite A1. unfold z1 in H. rewrite zget_set in H. destruct (here (pk z k p) p k' o') eqn:EH; [left; apply here_spec in EH; destruct EH; auto|]. rewrite G0 in H. destruct (here k (l :: p) k' o') eqn:EH2; [discriminate|]. destruct (F _ _ _ H) as [[-> ->]|X]; auto. unfold here in EH2. rewrite eqb_reflx, neqb_refl in EH2. discriminate. }
    rewrite A1. cbn [zn_children zn_rrs pn']. destruct ((zn_children pn - 1 =? 0) && (zlen (zn_rrs pn) =? 0) && negb (name_eqb p (z_apex z))) eqn:ET.
    + assert (EP : name_eqb p (z_apex z) = false) by (destruct (name_eqb p (z_apex z)); auto; rewrite andb_false_r in ET; discriminate). assert (PKK : pk z k p = k) by (unfold pk; rewrite EP; auto). rewrite PKK in *. apply (IH z1 k pn'); auto.
      * rewrite A1. intros X. rewrite X, neqb_refl in EP. discriminate.
      * unfold z1. rewrite zget_set. rewrite (proj2 (here_spec _ _ _ _)); auto.
      * cbn [pn' zn_rrs]. destruct (zn_rrs pn); auto. rewrite zlen_cons in ET. pose proof (zlen_nonneg l0). lia.
      * cbn [pn' zn_children]. lia.
    + split; auto. intros k' o' n' H. right. destruct (F1 _ _ _ H) as [[-> ->]|X]; auto. unfold z1 in H. rewrite zget_set in H. rewrite (proj2 (here_spec _ _ _ _)) in H by auto. injection H as <-. cbn [pn' zn_rrs zn_children]. destruct (name_eqb p (z_apex z)) eqn:EP; [left; apply neqb_spec in EP; congruence|right]. cbn [negb] in ET. rewrite andb_true_r in ET. destruct (zn_rrs pn); [right|left; discriminate]. rewrite zlen_nil in ET. lia.
Qed.
Lemma put_struct : forall z k o n rrs, linked z false [] -> filled z (only k o) -> ZoneModel.zget z k o = Some n -> rrs <> [] \/ 0 < zn_children n \/ o = z_apex z -> struct (zset z k o (mkzn rrs (zn_children n))).
Proof.
  intros z k o n rrs L F G H. split; [apply set_link; auto|]. intros k' o' n' E. rewrite zset_apex. right. rewrite zget_set in E. destruct (here k o k' o') eqn:EH.
  - injection E as <-. apply here_spec in EH. destruct EH as [<- <-]. cbn [zn_rrs zn_children]. tauto.
  - destruct (F _ _ _ E) as [[-> ->]|X]; auto. unfold here in EH. rewrite eqb_reflx, neqb_refl in EH. discriminate.
Qed.
Lemma filled_only : forall z k o, filled z nobody -> filled z (only k o). Proof. intros z k o F k' o' n H. destruct (F _ _ _ H) as [[]|]; auto. Qed.
(** Storing what is left of a node and deleting it if it is empty. *)
Lemma drop_struct : forall z k o n rrs, struct z -> ZoneModel.zget z k o = Some n ->
  struct (if (zlen rrs =? 0) && (zn_children n =? 0) && negb (name_eqb o (z_apex (zset z k o (mkzn rrs (zn_children n)))) && negb k) then del_node o (zset z k o (mkzn rrs (zn_children n))) k else zset z k o (mkzn rrs (zn_children n))).
Proof.
  intros z k o n rrs [L F] G. pose proof (filled_only z k o F) as FO. rewrite zset_apex. pose proof (set_link z k o n rrs false L G) as L1. pose proof (pk_self z k o n L G) as PK.
  assert (X : name_eqb o (z_apex z) && negb k = name_eqb o (z_apex z)). { unfold pk in PK. destruct (name_eqb o (z_apex z)); auto. subst. auto. } rewrite X.
  destruct ((zlen rrs =? 0) && (zn_children n =? 0) && negb (name_eqb o (z_apex z))) eqn:ET.
  - apply (del_node_link _ _ _ (mkzn rrs (zn_children n))); auto.
    + intros k' o' n' E. rewrite zset_apex. rewrite zget_set in E. destruct (here k o k' o') eqn:EH; [left; apply here_spec in EH; destruct EH; split; auto|]. destruct (F _ _ _ E) as [[]|]; auto.
    + rewrite zset_apex. intros Y. rewrite Y, neqb_refl in ET. cbn [negb] in ET. rewrite andb_false_r in ET. discriminate.
    + rewrite zget_set. rewrite (proj2 (here_spec _ _ _ _)); auto.
    + cbn [zn_rrs]. destruct rrs; auto. rewrite zlen_cons in ET. pose proof (zlen_nonneg rrs). lia.
    + cbn [zn_children]. lia.
  - apply put_struct; auto. destruct rrs as [|e rrs]; [|left; discriminate]. rewrite zlen_nil in ET. cbn [Z.eqb andb] in ET. destruct (name_eqb o (z_apex z)) eqn:EA; [right; right; apply neqb_spec; auto|]. right. left. cbn [negb] in ET. rewrite andb_true_r in ET. destruct L as [_ _ _ C _]. pose proof (C _ _ _ G) as Y. rewrite pend_nil in Y. pose proof (cnt_nonneg z k o). lia.
Qed.
Lemma remove_struct : forall z k o n r z', struct z -> ZoneModel.zget z k o = Some n -> remove_from_node z k o n r = Ok z' -> struct z'.
Proof.
  intros z k o n r z' S G E. unfold remove_from_node in E. destruct (node_remove_rrset yes false (zn_rrs n) r) as [[ret rrs]| | |]; cbn [rbind] in E; try discriminate. destruct (negb _); [discriminate|]. cbv zeta in E. pose proof (drop_struct z k o n rrs S G) as D. destruct (_ && _ && _); injection E as <-; auto.
Qed.
Lemma add_node_same : forall z k o n, linked z false [] -> ZoneModel.zget z k o = Some n -> add_node o z k = Ok (z, (k, o)).
Proof.
  intros z k o n L G. pose proof (pk_self z k o n L G) as PK. destruct L as [_ U _ _ _]. pose proof (U _ _ (get_ex _ _ _ _ G)) as HU. unfold pk in PK. destruct o as [|l p]; cbn [add_node]; destruct (name_eqb _ (z_apex z)) eqn:EA; try (subst; auto; fail); rewrite HU; cbn [negb]; rewrite G; auto.
Qed.
(** Adding a node and giving it RRsets. *)
Lemma grow_struct : forall z k o z1 h n rrs, struct z -> add_node o z k = Ok (z1, h) -> ZoneModel.zget z1 (fst h) (snd h) = Some n -> rrs <> [] -> struct (zset z1 (fst h) (snd h) (mkzn rrs (zn_children n))).
Proof.
  intros z k o z1 h n rrs [L F] E G HR. destruct (add_node_link o z k [] z1 h (linked_any _ _ _ L) (NoDup_nil _) ltac:(intros ? []) E) as (L1 & A1 & _ & EH & _ & N1). apply put_struct; auto; [eapply linked_any; eauto|]. intros k' o' n' H. rewrite A1. destruct (N1 _ _ _ H) as [[[-> ->]|X]|(m & H1 & H2 & H3)]; auto.
  - unfold pk in EH. destruct (name_eqb o (z_apex z)) eqn:EA; [right; left; apply neqb_spec; auto|]. left. rewrite EH. split; auto.
  - destruct (F _ _ _ H1) as [[]|[X|[X|X]]]; auto; right; right; [left; congruence|right; lia].
Qed.
