From Verif Require Import Base DnameModel DnameSpec DnameProofs DnameProofs2 WireModel WireProofs WireProps RdatasetModel RdatasetSpec RdatasetProofs RdatasetProps JserModel JserSpec.
Notation dwire := DnameSpec.wire.

(** ** Items: what is written at once *)
Definition rdl (s : rdataset) : list (list Z) := map (fun i => match rdataset_at s (Z.of_nat i) with Ok d => d | _ => [] end) (seq 0 (Z.to_nat (count s))).
Definition hdr (j : jrr) : list Z := j_owner j ++ be 2 (j_type j) ++ be 2 (j_class j) ++ be 2 (count (j_rrs j)).
Definition rditem (j : jrr) (d : list Z) : list Z := be 4 (j_ttl j) ++ be 2 (zlen d) ++ d.
Definition items (j : jrr) : list (list Z) := hdr j :: map (rditem j) (rdl (j_rrs j)).
Definition from_ (j : jrr) (p : Z) : list (list Z) := skipn (Z.to_nat (p + 1)) (items j).

Lemma zlen_be : forall n v, zlen (be n v) = Z.of_nat n.
Proof. induction n; intros; cbn [be]; [reflexivity|]. rewrite zlen_cons, IHn. lia. Qed.

Lemma rdl_is : forall s rs, is s rs -> rdl s = rs.
Proof.
  intros s rs H. pose proof H as (_ & _ & HC & _). unfold rdl. rewrite HC. unfold zlen. rewrite Nat2Z.id.
  assert (G : forall n pre l, rs = pre ++ l -> length l = n -> map (fun i => match rdataset_at s (Z.of_nat i) with Ok d => d | _ => [] end) (seq (length pre) n) = l).
  { induction n; intros pre l HE HL; destruct l as [|x l]; try discriminate; [reflexivity|]. cbn [seq map]. rewrite (c07_at s rs (Z.of_nat (length pre)) H ltac:(lia)).
    rewrite HE at 1. rewrite zget_app_r by (unfold zlen; lia). unfold zlen. rewrite Z.sub_diag. cbn [zget]. cbn. f_equal.
    replace (S (length pre)) with (length (pre ++ [x])) by (rewrite app_length; cbn; lia). apply IHn; [rewrite <- app_assoc; exact HE|cbn in HL; lia]. }
  apply (G (length rs) [] rs); auto.
Qed.

Record view (j : jrr) (ls : list label) (rs : list (list Z)) : Prop := mkview {
  v_name : legal_name ls; v_owner : j_owner j = dwire ls; v_is : is (j_rrs j) rs; v_rdl : rdl (j_rrs j) = rs; v_ne : rs <> [];
  v_type : 0 <= j_type j < 2 ^ 16; v_class : 0 <= j_class j < 2 ^ 16; v_ttl : 0 <= j_ttl j < 2 ^ 32; v_size : size (j_rrs j) <= 2 ^ 32 - 1 - 65538;
  v_cnt : count (j_rrs j) = zlen rs }.
Lemma rr_view : forall j, rr_ok j -> exists ls rs, view j ls rs.
Proof.
  intros j ((ls & H1 & H2) & H3 & H4 & H5 & (rs & H6 & H7) & H8). exists ls, rs. assert (I : is (j_rrs j) rs) by exact H6. split; auto; [apply rdl_is; auto|]. apply H6.
Qed.
Lemma rr_size : forall j, rr_ok j -> dname_size (j_owner j) = Ok (zlen (j_owner j)).
Proof.
  intros j H. destruct (rr_view j H) as (ls & rs & V). rewrite (v_owner _ _ _ V). rewrite <- (app_nil_r (dwire ls)) at 1. rewrite dname_size_spec by (apply (v_name _ _ _ V)). rewrite zlen_wire. reflexivity.
Qed.
Lemma rr_count : forall j, rr_ok j -> 1 <= count (j_rrs j) < 2 ^ 16 /\ zlen (items j) = count (j_rrs j) + 1.
Proof.
  intros j H. destruct (rr_view j H) as (ls & rs & V). pose proof (v_is _ _ _ V) as (_ & _ & HC & _ & HB & _). pose proof (v_ne _ _ _ V). destruct rs as [|r rs]; [congruence|].
  unfold items. rewrite zlen_cons. replace (zlen (map (rditem j) (rdl (j_rrs j)))) with (zlen (r :: rs)) by (unfold zlen; rewrite map_length, (v_rdl _ _ _ V); reflexivity). rewrite HC in *. rewrite zlen_cons in *. pose proof (zlen_nonneg rs). lia.
Qed.
Lemma from_init : forall j, from_ j (-1) = items j.
Proof. reflexivity. Qed.
Lemma from_0 : forall j, items j = hdr j :: from_ j 0.
Proof. reflexivity. Qed.
Lemma from_len : forall j p, rr_ok j -> -1 <= p <= count (j_rrs j) -> zlen (from_ j p) = count (j_rrs j) - p.
Proof. intros j p H Hp. destruct (rr_count j H) as [_ HL]. unfold from_, zlen in *. rewrite skipn_length. lia. Qed.
Lemma from_end : forall j p, rr_ok j -> -1 <= p <= count (j_rrs j) -> p >= count (j_rrs j) -> from_ j p = [].
Proof. intros j p H Hp HE. pose proof (from_len j p H Hp) as HL. destruct (from_ j p); auto. rewrite zlen_cons in HL. pose proof (zlen_nonneg l0). lia. Qed.
Lemma skipn_cons : forall A (l : list A) n x, nth_error l n = Some x -> skipn n l = x :: skipn (S n) l.
Proof. induction l as [|a l IH]; intros [|n] x H; cbn in *; try discriminate; [inversion H; auto|]. apply IH in H. exact H. Qed.
Lemma from_rd : forall j p, rr_ok j -> 0 <= p < count (j_rrs j) -> exists d, rdataset_at (j_rrs j) p = Ok d /\ from_ j p = rditem j d :: from_ j (p + 1) /\ zlen d <= 65535 /\ bytes d.
Proof.
  intros j p H Hp. destruct (rr_view j H) as (ls & rs & V). pose proof (v_cnt _ _ _ V) as HC. destruct (zget_in_range rs p ltac:(lia)) as [d Hd]. exists d.
  split; [rewrite (c07_at _ _ p (v_is _ _ _ V)) by lia; rewrite Hd; auto|]. split.
  - unfold from_. replace (Z.to_nat (p + 1 + 1)) with (S (Z.to_nat (p + 1))) by lia. apply skipn_cons. replace (Z.to_nat (p + 1)) with (S (Z.to_nat p)) by lia. unfold items. cbn [nth_error]. rewrite (v_rdl _ _ _ V). apply map_nth_error. unfold zget in Hd. destruct (p <? 0); [discriminate|auto].
  - pose proof (v_is _ _ _ V) as ((_ & HF) & _). rewrite Forall_forall in HF. destruct (HF d (zget_In _ _ _ Hd)). auto.
Qed.
Lemma from_eq : forall j p q, rr_ok j -> -1 <= p <= count (j_rrs j) -> -1 <= q <= count (j_rrs j) -> zlen (from_ j p) = zlen (from_ j q) -> p = q.
Proof. intros. rewrite !from_len in * by auto. lia. Qed.
Lemma hdr_len : forall j, zlen (hdr j) = zlen (j_owner j) + 6.
Proof. intros. unfold hdr. rewrite !zlen_app, !zlen_be. lia. Qed.
Lemma rditem_len : forall j d, zlen (rditem j d) = 6 + zlen d.
Proof. intros. unfold rditem. rewrite !zlen_app, !zlen_be. lia. Qed.
Lemma item_pos : forall j it, In it (items j) -> 6 <= zlen it.
Proof. intros j it [<-|H]; [rewrite hdr_len; pose proof (zlen_nonneg (j_owner j)); lia|]. apply in_map_iff in H. destruct H as (d & <- & _). rewrite rditem_len. pose proof (zlen_nonneg d). lia. Qed.

(** ** serialize_prepare *)
Definition total (l : list (list Z)) : Z := zlen (concat l).
Lemma total_cons : forall a l, total (a :: l) = zlen a + total l.
Proof. intros. unfold total. cbn [concat]. apply zlen_app. Qed.
Lemma total_nonneg : forall l, 0 <= total l.
Proof. intros. apply zlen_nonneg. Qed.
Definition left_ (src : list jrr) : nat := list_sum (map (fun r => S (S (Z.to_nat (count (j_rrs r))))) src).

(** The result: the buffer gets [mid]; the items [P] were counted *)
Definition prepared (src : list jrr) (cur : jrr) (rest : list jrr) (tmp cand max : Z) (src' : list jrr) (e : bool) (buf' : list jrr) (n : Z) : Prop :=
  exists mid P p', src = mid ++ src' /\ buf' = rev mid ++ cur :: rest /\
    from_ cur tmp ++ flat_map items mid = P ++ from_ (last mid cur) p' /\ -1 <= p' <= count (j_rrs (last mid cur)) /\
    n = cand + total P /\ (P = [] \/ n <= max) /\
    (e = true -> src' = [] /\ from_ (last mid cur) p' = []) /\
    (P = [] -> (e = true /\ from_ cur tmp ++ flat_map items src = []) \/ zlen (cur :: rest) >= RRSET_BUF_MAXSIZE \/ exists it, nth_error (from_ cur tmp ++ flat_map items src) 0 = Some it /\ zlen it + cand > max).

Lemma prepare_spec : forall fuel src cur rest tmp cand thresh max, rr_ok cur -> Forall rr_ok src -> -1 <= tmp <= count (j_rrs cur) ->
  (S (Z.to_nat (count (j_rrs cur) - tmp) + left_ src) <= fuel)%nat ->
  exists src' e buf' n, prepare_loop fuel src cur rest tmp cand cand thresh max = Ok (src', e, buf', n) /\ prepared src cur rest tmp cand max src' e buf' n.
Proof.
  induction fuel as [|fuel IH]; intros src cur rest tmp cand thresh max HC HS HT HF; [lia|]. cbn [prepare_loop].
  (* one item *)
  assert (ITEM : forall src cur rest tmp it, rr_ok cur -> Forall rr_ok src -> -1 <= tmp < count (j_rrs cur) ->
    (S (Z.to_nat (count (j_rrs cur) - (tmp + 1)) + left_ src) <= fuel)%nat -> from_ cur tmp = it :: from_ cur (tmp + 1) ->
    (if tmp =? RRSET_INIT then let* n := dname_size (j_owner cur) in Ok (6 + n) else let* d := rdataset_at (j_rrs cur) tmp in Ok (6 + zlen d)) = Ok (zlen it) ->
    exists src' e buf' n, 
      (let* n := if tmp =? RRSET_INIT then let* n := dname_size (j_owner cur) in Ok (6 + n) else let* d := rdataset_at (j_rrs cur) tmp in Ok (6 + zlen d) in
      let candidate := cand + n in
      if candidate >? max then Ok (src, false, cur :: rest, cand) else
      if candidate >=? thresh then Ok (src, false, cur :: rest, candidate) else
      prepare_loop fuel src cur rest (tmp + 1) candidate candidate thresh max) = Ok (src', e, buf', n) /\
      exists mid P p', src = mid ++ src' /\ buf' = rev mid ++ cur :: rest /\ from_ cur tmp ++ flat_map items mid = P ++ from_ (last mid cur) p' /\ -1 <= p' <= count (j_rrs (last mid cur)) /\
      n = cand + total P /\ (P = [] \/ n <= max) /\ (e = true -> src' = [] /\ from_ (last mid cur) p' = []) /\ (P = [] -> e = false /\ zlen it + cand > max)).
  { intros src0 cur0 rest0 tmp0 it HC0 HS0 HT0 HF0 HE0 HN0. rewrite HN0. cbn [rbind]. destruct (cand + zlen it >? max) eqn:E1.
    - do 4 eexists. split; [reflexivity|]. exists [], [], tmp0. cbn [app rev last flat_map]. rewrite app_nil_r. repeat split; auto; try lia; try discriminate. unfold total. cbn. lia.
    - destruct (cand + zlen it >=? thresh) eqn:E2.
      + do 4 eexists. split; [reflexivity|]. exists [], [it], (tmp0 + 1). cbn [app rev last flat_map]. rewrite app_nil_r. rewrite total_cons. change (total []) with 0. repeat split; auto; try lia; try discriminate.
      + destruct (IH src0 cur0 rest0 (tmp0 + 1) (cand + zlen it) thresh max HC0 HS0 ltac:(lia) ltac:(lia)) as (src' & e & buf' & n & -> & mid & P & p' & G1 & G2 & G3 & G4 & G5 & G6 & G7 & G8). do 4 eexists. split; [reflexivity|]. exists mid, (it :: P), p'. rewrite HE0. cbn [app]. rewrite G3. rewrite total_cons. repeat split; auto; try lia; try discriminate.
        * right. destruct G6 as [->|G6]; [change (total []) with 0 in *; lia|lia].
        * apply G7; auto.
        * apply G7; auto. }
  destruct (tmp >=? count (j_rrs cur)) eqn:ET.
  - assert (FE : from_ cur tmp = []) by (apply from_end; auto; lia). destruct (zlen (cur :: rest) >=? RRSET_BUF_MAXSIZE) eqn:EB.
    + do 4 eexists. split; [reflexivity|]. exists [], [], tmp. cbn [app rev last flat_map]. rewrite app_nil_r. change (total []) with 0. do 3 (split; [auto|]). split; [lia|]. split; [lia|]. split; [auto|]. split; [discriminate|]. intros _. right. left. lia.
    + destruct src as [|nx src].
      * do 4 eexists. split; [reflexivity|]. exists [], [], tmp. cbn [app rev last flat_map]. rewrite app_nil_r. change (total []) with 0. do 3 (split; [auto|]). split; [lia|]. split; [lia|]. split; [auto|]. split; [auto|]. auto.
      * inversion HS as [|? ? HN HS']; subst. destruct (rr_count nx HN) as [HCn _].
        assert (F0 : (S (Z.to_nat (count (j_rrs nx) - (-1 + 1)) + left_ src) <= fuel)%nat) by (unfold left_ in *; cbn [map list_sum fold_right] in HF; unfold list_sum in *; cbn [fold_right] in HF; lia).
        destruct (ITEM src nx (cur :: rest) RRSET_INIT (hdr nx) HN HS' ltac:(unfold RRSET_INIT; lia) F0 (from_0 nx)) as (src' & e & buf' & n & EQ & mid & P & p' & G1 & G2 & G3 & G4 & G5 & G6 & G7 & G8).
        { change (RRSET_INIT =? RRSET_INIT) with true. cbv iota. rewrite rr_size by auto. cbn [rbind]. rewrite hdr_len. f_equal. lia. }
        exists src', e, buf', n. split; [exact EQ|]. exists (nx :: mid), P, p'. assert (HLast : last (nx :: mid) cur = last mid nx) by (destruct mid as [|m mid]; [reflexivity|]; cbn [last]; clear; revert m; induction mid; intros; cbn [last]; auto).
        rewrite HLast. cbn [app rev flat_map]. rewrite <- app_assoc. cbn [app]. rewrite FE. cbn [app]. split; [f_equal; auto|]. split; [auto|]. split; [exact G3|]. split; [auto|]. split; [auto|]. split; [auto|]. split; [auto|].
        intros HP. destruct (G8 HP) as [-> HX]. right. right. exists (hdr nx). split; [reflexivity|auto].
  - destruct (Z.eq_dec tmp (-1)) as [->|Hne].
    + destruct (ITEM src cur rest (-1) (hdr cur) HC HS ltac:(lia) ltac:(lia) (from_0 cur)) as (src' & e & buf' & n & EQ & mid & P & p' & G1 & G2 & G3 & G4 & G5 & G6 & G7 & G8).
      { change (-1 =? RRSET_INIT) with true. cbv iota. rewrite rr_size by auto. cbn [rbind]. rewrite hdr_len. f_equal. lia. }
      exists src', e, buf', n. split; [exact EQ|]. exists mid, P, p'. do 7 (split; [auto|]). intros HP. destruct (G8 HP) as [-> HX]. right. right. exists (hdr cur). split; [reflexivity|auto].
    + destruct (from_rd cur tmp HC ltac:(lia)) as (d & HD & HE & _).
      destruct (ITEM src cur rest tmp (rditem cur d) HC HS ltac:(lia) ltac:(lia) HE) as (src' & e & buf' & n & EQ & mid & P & p' & G1 & G2 & G3 & G4 & G5 & G6 & G7 & G8).
      { replace (tmp =? RRSET_INIT) with false by (unfold RRSET_INIT; lia). rewrite HD. cbn [rbind]. rewrite rditem_len. reflexivity. }
      exists src', e, buf', n. split; [exact EQ|]. exists mid, P, p'. do 7 (split; [auto|]). intros HP. destruct (G8 HP) as [-> HX]. right. right. exists (rditem cur d). rewrite HE. split; [reflexivity|auto].
Qed.
