From Verif Require Import Base SerialModel SerialSpec SerialProofs SerialProps JournalModel JournalSpec JournalProofs.

(** * Chains of stored changesets *)
Fixpoint spath (a : Z) (l : list (Z * stored)) (b : Z) : Prop :=
  match l with
  | [] => a = b
  | (k, s) :: r => k = a /\ spath (s_to s) r b
  end.
Definition keys (l : list (Z * stored)) : list Z := map fst l.
Definition flat (l : list (Z * stored)) : list change := all_data (map snd l).
Definition entry_ok (k : Z) (s : stored) : Prop :=
  leads k (s_data s) (s_to s) /\ s_data s <> [] /\ 0 < s_size s /\ s_ok s = true /\ k <> s_to s.
Definition slt (a b : Z) : Prop := 0 <= a < 2 ^ 32 /\ 0 <= b < 2 ^ 32 /\ serial_compare a b = SERIAL_LOWER.
Fixpoint after (x : Z) (l : list (Z * stored)) : list (Z * stored) :=
  match l with
  | [] => []
  | (k, s) :: r => if k =? x then l else after x r
  end.
Definition zij_ok (z : zij) : Prop :=
  leads (z_serial z) (s_data (z_st z)) (s_to (z_st z)) /\ 0 < s_size (z_st z) /\ s_ok (z_st z) = true.
(** The last serial known to be kept elsewhere *)
Definition upto (d : db) (m : md) : Z := match d_zij d with Some z => s_to (z_st z) | None => m_flushed m end.

Record inv (d : db) (m : md) (chain : list (Z * stored)) (mg : option stored) : Prop := {
  i_path : spath (m_first m) chain (m_to m);
  i_ok : Forall (fun e => entry_ok (fst e) (snd e) /\ slt (fst e) (s_to (snd e))) chain;
  i_nd : NoDup (keys chain);
  i_end : ~ In (m_to m) (keys chain);
  i_count : m_count m = Z.of_nat (length chain);
  i_chs : forall k, find_ch k (d_chs d) =
            match find_ch k chain with
            | Some s => Some s
            | None => match mg with Some M => if k =? m_merged m then Some M else None | None => None end
            end;
  i_mg : match mg with
         | Some M => m_mv m = true /\ entry_ok (m_merged m) M /\ ~ In (m_merged m) (keys chain) /\
                     m_merged m <> m_to m /\ d_zij d = None
         | None => m_mv m = false
         end;
  i_tov : m_tov m = false -> chain = [];
  i_upto : upto d m = m_to m \/ In (upto d m) (keys chain);
  i_zij : match d_zij d with Some z => zij_ok z | None => True end }.

(** What the user knows and the journal *)
Definition gh (h : hist) (d : db) (m : md) (chain : list (Z * stored)) (mg : option stored) : Prop :=
  match d_zij d with
  | Some z => h_zone h = Some (z_serial z, z_id z, s_data (z_st z) ++ flat (after (upto d m) chain))
  | None =>
      h_zone h = None /\
      ((exists M, mg = Some M /\ s_to M = m_flushed m /\ h_file h = m_merged m /\
                  h_since h = s_data M ++ flat (after (m_flushed m) chain)) \/
       (h_file h = m_flushed m /\ h_since h = flat (after (m_flushed m) chain)))
  end.

(** ** Maps *)
Lemma find_del : forall k k' l, find_ch k (del_ch k' l) = if k =? k' then None else find_ch k l.
Proof.
  intros k k' l. induction l as [|[a s] r IH]; cbn [del_ch find_ch].
  - destruct (k =? k'); reflexivity.
  - destruct (k' =? a) eqn:E; cbn [find_ch].
    + rewrite IH. destruct (k =? k') eqn:E2; [reflexivity|].
      destruct (k =? a) eqn:E3; [lia|reflexivity].
    + destruct (k =? a) eqn:E3; [|exact IH]. destruct (k =? k') eqn:E2; [lia|reflexivity].
Qed.
Lemma find_put : forall k k' s l, find_ch k' l = None ->
  find_ch k (put_ch k' s l) = if k =? k' then Some s else find_ch k l.
Proof. intros k k' s l H. unfold put_ch. rewrite H. cbn [find_ch]. reflexivity. Qed.
Lemma length_del : forall k l s, find_ch k l = Some s -> (length (del_ch k l) < length l)%nat.
Proof.
  assert (G : forall k l, (length (del_ch k l) <= length l)%nat).
  { intros k l. induction l as [|[a s] r IH]; cbn [del_ch length]; [lia|]. destruct (k =? a); cbn [length]; lia. }
  intros k l s. induction l as [|[a s'] r IH]; cbn [find_ch del_ch]; [discriminate|].
  destruct (k =? a); cbn [length].
  - intros _. specialize (G k r). lia.
  - intros H. specialize (IH H). lia.
Qed.
Lemma find_keys : forall k l, find_ch k l = None <-> ~ In k (keys l).
Proof.
  intros k l. induction l as [|[a s] r IH]; cbn [find_ch keys map fst In].
  - split; auto.
  - destruct (k =? a) eqn:E.
    + split; [discriminate|]. intros H. exfalso. apply H. left. lia.
    + rewrite IH. unfold keys. split; [intros H [H2|H2]; [lia|auto]|auto].
Qed.
Lemma find_in : forall k s l, NoDup (keys l) -> In (k, s) l -> find_ch k l = Some s.
Proof.
  intros k s l. induction l as [|[a s'] r IH]; cbn [keys map fst In find_ch]; [contradiction|].
  intros H [H1|H1].
  - injection H1 as -> ->. rewrite Z.eqb_refl. reflexivity.
  - apply NoDup_cons_iff in H as [H2 H3]. destruct (k =? a) eqn:E; [|apply IH; assumption].
    exfalso. apply H2. apply Z.eqb_eq in E. subst. apply (in_map fst) in H1. exact H1.
Qed.

(** ** Suffixes *)
Lemma after_app : forall x l, exists p, l = p ++ after x l /\ ~ In x (keys p).
Proof.
  intros x l. induction l as [|[k s] r (p & E & H)]; cbn [after].
  - exists []. split; [reflexivity|auto].
  - destruct (k =? x) eqn:EX.
    + exists []. split; [reflexivity|auto].
    + exists ((k, s) :: p). cbn [app]. rewrite <- E. split; [reflexivity|]. cbn [keys map fst In].
      intros [A|A]; [lia|auto].
Qed.
Lemma after_none : forall x l, ~ In x (keys l) -> after x l = [].
Proof.
  intros x l. induction l as [|[k s] r IH]; cbn [after keys map fst In]; [reflexivity|].
  intros H. destruct (k =? x) eqn:E; [exfalso; apply H; left; lia|]. apply IH. auto.
Qed.
Lemma after_path : forall l a b x, spath a l b -> x = b \/ In x (keys l) -> ~ In b (keys l) -> spath x (after x l) b.
Proof.
  induction l as [|[k s] r IH]; cbn [spath after keys map fst In]; intros a b x HP HX HB.
  - destruct HX as [->|[]]. reflexivity.
  - destruct HP as [-> HP]. destruct (a =? x) eqn:E.
    + apply Z.eqb_eq in E. subst. cbn [spath]. auto.
    + eapply IH; [exact HP| |auto]. destruct HX as [->|[H|H]]; [auto|lia|auto].
Qed.
Lemma after_suffix : forall p l x, ~ In x (keys p) -> after x (p ++ l) = after x l.
Proof.
  induction p as [|[k s] r IH]; intros l x H; cbn [app after keys map fst In] in *; [reflexivity|].
  destruct (k =? x) eqn:E; [exfalso; apply H; left; lia|]. apply IH. auto.
Qed.
Lemma spath_app : forall p l a b, spath a (p ++ l) b <-> exists c, spath a p c /\ spath c l b.
Proof.
  induction p as [|[k s] r IH]; intros l a b; cbn [app spath].
  - split; [intros H; exists a; auto|intros (c & -> & H); exact H].
  - rewrite IH. split.
    + intros (H1 & c & H2 & H3). exists c. auto.
    + intros (c & (H1 & H2) & H3). split; [exact H1|]. exists c. auto.
Qed.
Lemma keys_app : forall a b, keys (a ++ b) = keys a ++ keys b.
Proof. intros. apply map_app. Qed.
Lemma flat_app : forall a b, flat (a ++ b) = flat a ++ flat b.
Proof. intros. unfold flat, all_data. rewrite map_app, flat_map_app. reflexivity. Qed.
Lemma leads_app : forall l r a b c, leads a l b -> leads b r c -> leads a (l ++ r) c.
Proof.
  induction l as [|x l IH]; cbn [leads app]; intros r a b c H1 H2; [subst; exact H2|].
  destruct H1 as [H1 H3]. split; [exact H1|]. eapply IH; eassumption.
Qed.
Lemma spath_leads : forall l a b, spath a l b -> Forall (fun e => entry_ok (fst e) (snd e) /\ slt (fst e) (s_to (snd e))) l -> leads a (flat l) b.
Proof.
  induction l as [|[k s] r IH]; cbn [spath]; intros a b H HF; [exact H|].
  destruct H as [-> H]. apply Forall_cons_iff in HF as [[HE _] HF].
  unfold flat, all_data. cbn [map flat_map snd]. eapply leads_app; [apply HE|]. apply IH; assumption.
Qed.
Lemma spath_contiguous : forall l a b, spath a l b -> Forall (fun e => entry_ok (fst e) (snd e) /\ slt (fst e) (s_to (snd e))) l -> contiguous a (map snd l) b.
Proof.
  induction l as [|[k s] r IH]; cbn [spath map contiguous snd]; intros a b H HF; [exact H|].
  destruct H as [-> H]. apply Forall_cons_iff in HF as [[HE _] HF].
  split; [apply HE|]. split; [apply HE|]. apply IH; assumption.
Qed.
Lemma spath_last : forall l a b k s, spath a ((k, s) :: l) b -> last_to s (map snd l) = b.
Proof.
  induction l as [|[k' s'] r IH]; intros a b k s H; cbn [spath map snd] in *.
  - unfold last_to. cbn [last]. apply H.
  - destruct H as (H1 & H2 & H3). unfold last_to in *.
    assert (E : last (s' :: map snd r) s = last (map snd r) s').
    { clear. generalize s'. generalize s. induction (map snd r) as [|x l IH]; intros a b; [reflexivity|].
      cbn [last]. destruct l; [reflexivity|]. cbn [last] in IH. apply (IH a b). }
    rewrite E. apply (IH (s_to s) b k' s'). cbn [spath]. auto.
Qed.

(** ** Reading *)
Lemma read_loop_path : forall l d x b n total fuel, spath x l b ->
  Forall (fun e => find_ch (fst e) (d_chs d) = Some (snd e) /\ s_ok (snd e) = true /\ fst e <> s_to (snd e)) l ->
  find_ch b (d_chs d) = None -> n + Z.of_nat (length l) <= total -> (length l < fuel)%nat ->
  read_loop fuel d x n total = Ok (map snd l, KNOT_EOK).
Proof.
  induction l as [|[k s] r IH]; intros d x b n total fuel HP HF HB HN HL;
    (destruct fuel as [|fuel]; cbn [length] in HL; [lia|]); cbn [read_loop].
  - cbn [spath] in HP. subst. rewrite HB. reflexivity.
  - cbn [spath] in HP. destruct HP as [-> HP]. apply Forall_cons_iff in HF as [(H1 & H2 & H3) HF].
    cbn [fst snd length] in *. rewrite H1.
    replace (x =? s_to s) with false by lia. replace (n + 1 >? total) with false by lia. rewrite H2. cbn [negb].
    rewrite (IH d (s_to s) b (n + 1) total fuel); [reflexivity|assumption|assumption|assumption|lia|lia].
Qed.

Section Inv.
Lemma inv_find : forall d m chain mg k s, inv d m chain mg -> In (k, s) chain -> find_ch k (d_chs d) = Some s.
Proof.
  intros d m chain mg k s I H. rewrite (i_chs _ _ _ _ I). rewrite (find_in k s chain); [reflexivity|apply (i_nd _ _ _ _ I)|exact H].
Qed.
Lemma inv_to_none : forall d m chain mg, inv d m chain mg -> find_ch (m_to m) (d_chs d) = None.
Proof.
  intros d m chain mg I. rewrite (i_chs _ _ _ _ I). pose proof (i_end _ _ _ _ I) as H. apply find_keys in H. rewrite H.
  destruct mg as [M|]; [|reflexivity]. pose proof (i_mg _ _ _ _ I) as H2. cbn beta iota in H2.
  replace (m_to m =? m_merged m) with false by lia. reflexivity.
Qed.
Lemma Forall_suffix : forall A (P : A -> Prop) l p s, l = p ++ s -> Forall P l -> Forall P s.
Proof. intros A P l p s -> H. apply Forall_app in H. apply H. Qed.
Lemma inv_read : forall d m chain mg x n total fuel, inv d m chain mg -> x = m_to m \/ In x (keys chain) ->
  n + Z.of_nat (length (after x chain)) <= total -> (length (after x chain) < fuel)%nat ->
  read_loop fuel d x n total = Ok (map snd (after x chain), KNOT_EOK).
Proof.
  intros d m chain mg x n total fuel I HX HN HL. eapply read_loop_path.
  - eapply after_path; [apply (i_path _ _ _ _ I)|exact HX|apply (i_end _ _ _ _ I)].
  - destruct (after_app x chain) as (p & E & _). apply Forall_forall. intros [k s] H. cbn [fst snd].
    assert (HC : In (k, s) chain) by (rewrite E; apply in_or_app; right; exact H).
    pose proof (i_ok _ _ _ _ I) as HO. rewrite Forall_forall in HO. destruct (HO _ HC) as ((A1 & A2 & A3 & A4 & A5) & _).
    split; [eapply inv_find; eassumption|]. auto.
  - eapply inv_to_none. exact I.
  - exact HN.
  - exact HL.
Qed.
Lemma after_length : forall x l, (length (after x l) <= length l)%nat.
Proof. intros x l. destruct (after_app x l) as (p & E & _). rewrite E at 2. rewrite app_length. lia. Qed.
Lemma after_in : forall x l, In x (keys l) -> exists s r, after x l = (x, s) :: r.
Proof.
  intros x l. induction l as [|[k s] r IH]; cbn [keys map fst In after]; [contradiction|].
  intros H. destruct (k =? x) eqn:E; [apply Z.eqb_eq in E; subst; eauto|]. destruct H as [H|H]; [lia|auto].
Qed.

(** Reading from a serial of the chain *)
Lemma read_chain : forall d m chain mg x, inv d m chain mg -> d_md d = Some m -> m_tov m = true ->
  In x (keys chain) -> read_from d x = Ok (map snd (after x chain), KNOT_EOK).
Proof.
  intros d m chain mg x I HM HT HX. unfold read_from, md_of. rewrite HM, HT. cbn [negb]. cbv zeta.
  destruct (after_in x chain HX) as (s & r & E).
  destruct (after_app x chain) as (p & EC & _).
  assert (HC : In (x, s) chain) by (rewrite EC, E; apply in_or_app; right; left; reflexivity).
  rewrite (inv_find _ _ _ _ _ _ I HC).
  pose proof (i_ok _ _ _ _ I) as HO. rewrite Forall_forall in HO. destruct (HO _ HC) as ((A1 & A2 & A3 & A4 & A5) & _).
  cbn [fst snd] in A5. replace (x =? s_to s) with false by lia.
  pose proof (after_length x chain) as HL.
  assert (HN : m_mv m && (x =? m_merged m) = false).
  { pose proof (i_mg _ _ _ _ I) as G. destruct mg as [M|]; [|rewrite G; reflexivity].
    destruct G as (G1 & G2 & G3 & G4 & G5). destruct (x =? m_merged m) eqn:EX; [|apply andb_false_r].
    exfalso. apply G3. apply Z.eqb_eq in EX. rewrite <- EX. exact HX. }
  rewrite HN. rewrite (i_count _ _ _ _ I).
  assert (1 <= Z.of_nat (length chain)) by (destruct chain; [contradiction|cbn [length]; lia]).
  replace (0 + 1 >? Z.of_nat (length chain) + 0) with false by lia. cbn [orb].
  eapply inv_read; [exact I|right; exact HX|lia|unfold read_fuel; lia].
Qed.
(** Reading from the merged changeset *)
Lemma read_merged : forall d m chain M, inv d m chain (Some M) -> d_md d = Some m -> m_tov m = true ->
  s_to M = m_to m \/ In (s_to M) (keys chain) ->
  read_from d (m_merged m) = Ok (M :: map snd (after (s_to M) chain), KNOT_EOK).
Proof.
  intros d m chain M I HM HT HX. unfold read_from, md_of. rewrite HM, HT. cbn [negb]. cbv zeta.
  pose proof (i_mg _ _ _ _ I) as (G1 & (A1 & A2 & A3 & A4 & A5) & G3 & G4 & G5).
  assert (HF : find_ch (m_merged m) (d_chs d) = Some M).
  { rewrite (i_chs _ _ _ _ I). apply find_keys in G3. rewrite G3, Z.eqb_refl. reflexivity. }
  rewrite HF. replace (m_merged m =? s_to M) with false by lia. rewrite G1, Z.eqb_refl. cbn [andb].
  rewrite (i_count _ _ _ _ I). replace (0 + 1 >? Z.of_nat (length chain) + 1) with false by lia. cbn [orb].
  unfold read_fuel. cbn [read_loop]. rewrite HF. replace (m_merged m =? s_to M) with false by lia.
  replace (0 + 1 >? Z.of_nat (length chain) + 1) with false by lia. rewrite A4. cbn [negb].
  pose proof (after_length (s_to M) chain) as HL.
  rewrite (inv_read d m chain (Some M)); [reflexivity|exact I|exact HX|lia|lia].
Qed.
(** Reading from the zone-in-journal *)
Lemma read_zij : forall d m chain mg z, inv d m chain mg -> d_md d = Some m -> m_tov m = true -> d_zij d = Some z ->
  read_zone d = Ok (z, map snd (after (s_to (z_st z)) chain), KNOT_EOK).
Proof.
  intros d m chain mg z I HM HT HZ. unfold read_zone, md_of. rewrite HM, HT, HZ. cbn [negb]. cbv zeta.
  rewrite (i_count _ _ _ _ I). replace (0 + 1 >? Z.of_nat (length chain) + 1) with false by lia.
  pose proof (i_zij _ _ _ _ I) as G. rewrite HZ in G. destruct G as (G1 & G2 & G3). rewrite G3. cbn [negb].
  pose proof (after_length (s_to (z_st z)) chain) as HL. pose proof (i_upto _ _ _ _ I) as HU. unfold upto in HU. rewrite HZ in HU.
  rewrite (inv_read d m chain mg); [reflexivity|exact I|exact HU|lia|unfold read_fuel; lia].
Qed.
End Inv.
