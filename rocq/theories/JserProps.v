(** C18: serialization of changesets in the journal. *)
From Verif Require Import Base DnameModel DnameSpec DnameProofs DnameProofs2 WireModel WireProofs WireProps RdatasetModel RdatasetSpec RdatasetProofs RdatasetProps JserModel JserSpec JserProofs JserProofs2 JserProofs3 JserProofs4.

Lemma fits_items : forall max l, Forall rr_ok l -> Forall (fits max) l -> Forall (fun it => zlen it <= max) (flat_map items l).
Proof.
  intros max l H1 H2. apply Forall_forall. intros it Hi. apply in_flat_map in Hi. destruct Hi as (j & Hj & Hi). rewrite Forall_forall in *. destruct (H2 j Hj) as [F1 F2]. destruct (rr_view j (H1 j Hj)) as (ls & rs & V). destruct Hi as [<-|Hi]; [rewrite hdr_len; auto|].
  apply in_map_iff in Hi. destruct Hi as (d & <- & Hd). rewrite rditem_len. rewrite (v_rdl _ _ _ V) in Hd. pose proof (F2 rs d (v_is _ _ _ V) Hd). lia.
Qed.

(** *** The round trip: for all limits between which no piece is too large, whatever the memory from the database holds *)
Theorem c18_round_trip : forall apex ch thresh max to now fresh al, ch_ok apex ch -> Forall (fits max) (source ch) -> 0 <= max < 2 ^ 62 -> 0 <= to < 2 ^ 32 -> 0 <= now < 2 ^ 64 -> (forall n, al n = true) ->
  exists chunks, write_serialize (source ch) thresh max to now fresh = Ok chunks /\ chunks <> [] /\
    Forall (fun c => 32 < zlen c <= max + 32 /\ next_serial c = Ok to /\ ch_timestamp c = Ok now) chunks /\
    exists c, read_changeset al chunks (dwire apex) = Ok (Some ch, c) /\ rc_next c = to /\ rc_ret c = KNOT_EOK.
Proof.
  intros apex ch thresh max to now fresh al HC HF HM HT HN HAL. pose proof HC as (_ & HS & _). destruct (write_spec (source ch) thresh max to now fresh HS (fits_items max _ HS HF) HM) as (parts & -> & H1 & H2).
  assert (HP : Forall (part_ok max) parts). { pose proof (item_min _ HS) as HI. rewrite <- H1 in HI. clear - H2 HI. induction H2 as [|P parts [G1 G2] _ IH]; [constructor|]. cbn [concat] in HI. apply Forall_app in HI. destruct HI. constructor; auto. split; auto. }
  destruct (read_spec max to now al apex ch parts HAL HC HP H1 HM HT) as (c & ER & E1 & E2). eexists. split; [reflexivity|]. split.
  { intros E. apply map_eq_nil in E. subst parts. cbn [concat] in H1. unfold source in H1. destruct (jc_from ch) as [[? ?]|]; discriminate. }
  split; [|exists c; auto]. apply Forall_forall. intros x Hx. apply in_map_iff in Hx. destruct Hx as (P & <- & HIn). rewrite Forall_forall in HP. destruct (HP P HIn) as (G1 & G2 & G3). rewrite zlen_app, header_len.
  assert (6 <= total P) by (destruct P as [|p P]; [congruence|]; inversion G3; subst; rewrite total_cons; pose proof (total_nonneg P); lia). unfold total in *. split; [lia|]. split; [apply next_serial_of; auto|].
  unfold ch_timestamp. rewrite mem_read_ok by (rewrite ?zlen_app, ?header_len; lia). cbn [rbind]. unfold make_header. replace ((be 4 to ++ be 4 0 ++ be 8 0 ++ be 8 now ++ be 8 0) ++ concat P) with ((be 4 to ++ be 4 0 ++ be 8 0) ++ be 8 now ++ be 8 0 ++ concat P) by (rewrite <- !app_assoc; reflexivity).
  change 16 with (zlen (be 4 to ++ be 4 0 ++ be 8 0)). rewrite zskipn_app_exact. change 8 with (zlen (be 8 now)) at 1. rewrite zfirstn_app_exact, unbe_be, Z.mod_small by (change (256 ^ Z.of_nat 8) with (2 ^ 64); lia). reflexivity.
Qed.

(** With the limits of the journal every changeset fits. *)
Theorem c18_stored : forall apex ch to now fresh al, ch_ok apex ch -> 0 <= to < 2 ^ 32 -> 0 <= now < 2 ^ 64 -> (forall n, al n = true) ->
  exists chunks, write_changeset ch to now fresh = Ok chunks /\ Forall (fun c => 32 < zlen c <= 71680 /\ next_serial c = Ok to /\ ch_timestamp c = Ok now) chunks /\
    exists c, read_changeset al chunks (dwire apex) = Ok (Some ch, c) /\ rc_next c = to /\ rc_ret c = KNOT_EOK.
Proof.
  intros apex ch to now fresh al HC HT HN HAL. destruct (c18_round_trip apex ch (CHUNK_THRESH - HEADER_SIZE) (CHUNK_MAX - HEADER_SIZE) to now fresh al HC) as (chunks & H1 & _ & H2 & H3); auto.
  - destruct HC as (_ & HS & _). eapply Forall_impl; [|exact HS]. intros j HJ. destruct (rr_view j HJ) as (ls & rs & V). unfold CHUNK_MAX, HEADER_SIZE. split.
    + rewrite (v_owner _ _ _ V), zlen_wire. destruct (v_name _ _ _ V). lia.
    + intros rs' r ((_ & HF) & _) Hr. rewrite Forall_forall in HF. destruct (HF r Hr). lia.
  - unfold CHUNK_MAX, HEADER_SIZE. lia.
  - exists chunks. split; [exact H1|]. split; [exact H2|exact H3].
Qed.

(** *** Any sequence of RRsets (a whole zone, a difference of zones): reading of them one by one gives them in their order. *)
Theorem c18_rrsets : forall apex l thresh max to now fresh al, l <> [] -> legal_name apex -> Forall rr_ok l -> Forall (fits max) l -> 0 <= max < 2 ^ 62 -> 0 <= to < 2 ^ 32 -> (forall n, al n = true) ->
  exists chunks l', write_serialize l thresh max to now fresh = Ok chunks /\ read_rrsets al chunks (dwire apex) = Ok (l', KNOT_EOK) /\ map snd l' = l /\
    (forall i b j, zget l' i = Some (b, j) -> (b = true <-> exists n, soas apex (zfirstn (i + 1) l) = 2 * n + 1)).
Proof.
  intros apex l thresh max to now fresh al HNE HX HS HF HM HT HAL. destruct (write_spec l thresh max to now fresh HS (fits_items max _ HS HF) HM) as (parts & -> & H1 & H2).
  assert (HP : Forall (part_ok max) parts). { pose proof (item_min _ HS) as HI. rewrite <- H1 in HI. clear - H2 HI. induction H2 as [|P parts [G1 G2] _ IH]; [constructor|]. cbn [concat] in HI. apply Forall_app in HI. destruct HI. constructor; auto. split; auto. }
  destruct (read_begin_spec max to now parts l HNE HP H1 HM HT) as (c0 & EB & HL & HLEN).
  assert (G : forall l fuel c b, Forall rr_ok l -> left_is max to now c (flat_map items l) -> (length l < fuel)%nat ->
    exists l', read_rrsets_loop fuel al c (dwire apex) b = Ok (l', KNOT_EOK) /\ map snd l' = l /\
      forall i r j, zget l' i = Some (r, j) -> (r = true <-> exists n, soas apex (zfirstn (i + 1) l) + (if b then 1 else 0) = 2 * n + 1)).
  { clear - HAL HX. induction l as [|j l IH]; intros fuel c b HS HL HLN; (destruct fuel as [|fuel]; [cbn [length] in HLN; lia|]); cbn [read_rrsets_loop].
    - unfold read_rrset. rewrite (available_none _ _ _ _ HL). cbn [rbind negb]. destruct HL as (I & p & (_ & _ & _ & -> & _) & _). exists []. split; [auto|]. split; [auto|]. intros i r j E. apply zget_In in E. destruct E.
    - inversion HS; subst. cbn [flat_map] in HL. destruct (read_rrset_spec _ _ _ al j c _ HAL H1 HL) as (c1 & -> & HL1). cbn [rbind]. destruct (is_apex_spec apex j HX H1) as (a & -> & HA). cbn [rbind]. cbn [length] in HLN.
      assert (HAB : is_soa apex j = a).
      { unfold is_soa. unfold apex_soa in HA. destruct (list_eq_dec Z.eq_dec (j_owner j) (dwire apex)) as [EL|EL]; destruct a; try rewrite andb_true_r; try rewrite andb_false_r; auto.
        - destruct (proj1 HA eq_refl). lia.
        - destruct (j_type j =? 6) eqn:ET; auto. symmetry. apply HA. split; [lia|auto].
        - destruct (proj1 HA eq_refl). congruence. }
      destruct (IH fuel c1 (if a then negb b else b) H2 HL1 ltac:(lia)) as (l' & -> & G1 & G2). cbn [rbind]. eexists. split; [reflexivity|]. split; [cbn [map snd]; f_equal; auto|].
      intros i r j' E. pose proof (zlen_nonneg l'). destruct (Z.eq_dec i 0) as [->|Hi].
      + cbn in E. inversion E; subst r j'. change (zfirstn (0 + 1) (j :: l)) with [j]. unfold soas. cbn [filter]. rewrite HAB. destruct a, b; cbn [negb]; rewrite ?zlen_cons, ?zlen_nil; split; intros; try discriminate; auto; try (destruct H0 as [n Hn]; lia); try (exists 0; lia).
      + assert (Hi2 : 0 < i) by (destruct (zget_some _ _ _ E); lia). rewrite zget_cons in E by lia. specialize (G2 _ _ _ E). rewrite G2. replace (i - 1 + 1) with i by lia.
        replace (zfirstn (i + 1) (j :: l)) with (j :: zfirstn i l) by (unfold zfirstn; replace (Z.to_nat (i + 1)) with (S (Z.to_nat i)) by lia; reflexivity). unfold soas. cbn [filter]. rewrite HAB. set (k := zlen (filter _ (zfirstn i l))). destruct a; [rewrite zlen_cons; fold k|fold k]; [|reflexivity].
        destruct b; cbn [negb]; split; intros [n Hn]; [exists (n + 1)|exists (n - 1)|exists n|exists n]; lia. }
  destruct (G l (S (length (concat (map (chunk_of to now) parts)))) c0 false HS HL ltac:(lia)) as (l' & EL & E1 & E2). eexists _, l'. split; [reflexivity|]. split; [unfold read_rrsets; change (map (fun P => make_header to now ++ concat P) parts) with (map (chunk_of to now) parts); rewrite EB; exact EL|]. split; [auto|].
  intros i b j E. rewrite (E2 i b j E). rewrite Z.add_0_r. reflexivity.
Qed.

(** *** A case: RRset of three records, limits that split it *)
Definition ex_set (l : list (list Z)) : rdataset := match add_all (fun _ => true) rdataset_init l with Ok s => s | _ => rdataset_init end.
Definition ex_apex : list label := [[101; 120]].
Definition ex_soa (n : Z) : jrr := mkjrr (dwire ex_apex) 6 1 3600 (ex_set [[0; 0; 0; 0; 0; n]]).
Definition ex_a : jrr := mkjrr (dwire ([97] :: ex_apex)) 1 1 300 (ex_set [[10; 0; 0; 1]; [10; 0; 0; 2]; [10; 0; 0; 3]]).
Definition ex_ch : jchange := mkjch (Some (ex_soa 1, [])) (ex_soa 2) [ex_a].
Lemma ex_ok : forall o t ttl l s, legal_name o -> 0 <= t < 2 ^ 16 -> 0 <= ttl < 2 ^ 32 -> Forall rdata_ok l -> l <> [] -> add_all (fun _ => true) rdataset_init l = Ok s -> size s < 1000 -> rr_ok (mkjrr (dwire o) t 1 ttl s).
Proof.
  intros o t ttl l s H1 H2 H3 H4 H5 E H6. destruct (add_all_spec l _ _ _ _ c07_init H4 E) as (rs & G1 & G2). split; [exists o; auto|]. cbn [j_type j_class j_ttl j_rrs]. do 3 (split; [lia|]). split; [|lia]. exists rs. split; [exact G1|]. intros ->. destruct l as [|x l]; [congruence|]. specialize (G2 x). destruct G2 as [_ G2]. apply G2. right. left. reflexivity.
Qed.
Lemma ex_bytes : forall l, forallb (fun d => forallb (fun b => (0 <=? b) && (b <? 256)) d && (zlen d <=? 65535)) l = true -> Forall rdata_ok l.
Proof. intros l H. apply Forall_forall. intros d Hd. rewrite forallb_forall in H. specialize (H d Hd). apply andb_true_iff in H. destruct H as [H1 H2]. split; [|lia]. apply Forall_forall. intros b Hb. rewrite forallb_forall in H1. specialize (H1 b Hb). unfold byte. lia. Qed.
Lemma ex_legal : forall ls, forallb (fun l => (1 <=? zlen l) && (zlen l <=? 63) && forallb (fun b => (0 <=? b) && (b <? 256)) l) ls && (name_size ls <=? 255) = true -> legal_name ls.
Proof.
  intros ls H. apply andb_true_iff in H. destruct H as [H1 H2]. split; [|lia]. apply Forall_forall. intros l Hl. rewrite forallb_forall in H1. specialize (H1 l Hl). apply andb_true_iff in H1. destruct H1 as [H1 H3]. split; [lia|]. apply Forall_forall. intros b Hb. rewrite forallb_forall in H3. specialize (H3 b Hb). unfold byte. lia.
Qed.
Lemma ex_ch_ok : ch_ok ex_apex ex_ch.
Proof.
  assert (HA : legal_name ex_apex) by (apply ex_legal; reflexivity).
  assert (HB : legal_name ([97] :: ex_apex)) by (apply ex_legal; reflexivity).
  assert (S1 : rr_ok (ex_soa 1)) by (eapply (ex_ok ex_apex 6 3600 [[0; 0; 0; 0; 0; 1]]); [auto|lia|lia|apply ex_bytes; reflexivity|discriminate|vm_compute; reflexivity|vm_compute; reflexivity]).
  assert (S2 : rr_ok (ex_soa 2)) by (eapply (ex_ok ex_apex 6 3600 [[0; 0; 0; 0; 0; 2]]); [auto|lia|lia|apply ex_bytes; reflexivity|discriminate|vm_compute; reflexivity|vm_compute; reflexivity]).
  assert (S3 : rr_ok ex_a) by (eapply (ex_ok ([97] :: ex_apex) 1 300 [[10; 0; 0; 1]; [10; 0; 0; 2]; [10; 0; 0; 3]]); [auto|lia|lia|apply ex_bytes; reflexivity|discriminate|vm_compute; reflexivity|vm_compute; reflexivity]).
  split; [auto|]. split; [do 3 (constructor; [auto|]); constructor|]. split; [split; reflexivity|]. split; [constructor; [intros [H _]; discriminate|constructor]|]. split; [split; reflexivity|constructor].
Qed.
Example c18_case : Forall (fits 16) (source ex_ch) /\ exists chunks, write_serialize (source ex_ch) 10 16 2 77 255 = Ok chunks /\ map (@zlen Z) chunks = [42; 44; 42; 44; 44; 42; 42; 42] /\ 
  exists c, read_changeset (fun _ => true) chunks (dwire ex_apex) = Ok (Some ex_ch, c).
Proof.
  split.
  - assert (G : forall j l, rdl (j_rrs j) = l -> zlen (j_owner j) + 6 <= 16 -> (forall d, In d l -> zlen d + 6 <= 16) -> fits 16 j) by (intros j l E H1 H2; split; auto; intros rs r R Hr; apply H2; rewrite <- E; rewrite (rdl_is (j_rrs j) rs R); auto).
    do 3 (constructor; [eapply G; [vm_compute; reflexivity|vm_compute; congruence|]; intros d Hd; repeat (destruct Hd as [<-|Hd]; [vm_compute; congruence|]); destruct Hd|]). constructor.
  - eexists. split; [vm_compute; reflexivity|]. split; [vm_compute; reflexivity|]. eexists. vm_compute. reflexivity.
Qed.

(** *** Limits: a piece larger than the limit ends the serialization, with success and without the rest. *)
Theorem c18_too_large_refuted : ~ (forall apex ch thresh max to now fresh, ch_ok apex ch -> 0 <= max < 2 ^ 62 -> 0 <= to < 2 ^ 32 ->
  forall chunks, write_serialize (source ch) thresh max to now fresh = Ok chunks -> exists c, read_changeset (fun _ => true) chunks (dwire apex) = Ok (Some ch, c)).
Proof.
  intros H. specialize (H ex_apex ex_ch 10 11 2 77 255 ex_ch_ok ltac:(lia) ltac:(lia)). destruct (write_serialize (source ex_ch) 10 11 2 77 255) as [chunks| | |] eqn:E; try (vm_compute in E; discriminate).
  destruct (H chunks eq_refl) as [c EC]. vm_compute in E. inversion E; subst. vm_compute in EC. discriminate.
Qed.
(** An octet in the database that changed makes the reader read outside of the chunk. *)
Theorem c18_corrupt_refuted : ~ (forall chunks apex, Forall (fun c => 32 < zlen c) chunks -> read_changeset (fun _ => true) chunks (dwire apex) <> UB).
Proof. intros H. apply (H [make_header 2 0 ++ [3; 97; 98]] ex_apex); [repeat constructor|vm_compute; reflexivity]. Qed.

Print Assumptions c18_round_trip.
Print Assumptions c18_stored.
Print Assumptions c18_rrsets.
Print Assumptions c18_too_large_refuted.
Print Assumptions c18_corrupt_refuted.
