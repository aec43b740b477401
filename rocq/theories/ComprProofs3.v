(** Writing of records: the owner, the header, the RDATA and the whole RRset. *)
From Verif Require Import Base DnameModel DnameSpec DnameProofs DnameProofs2 WireModel RrwireModel RrwireSpec RrwireProofs RrwireProofs2 RrwireProofs3 ComprModel ComprProofs ComprProofs2.

(** ** The context. [al] tells which names a hint may point to; the hint for the owner is not used if
    the owner is the root. *)
Definition hint_ok (al : Z -> list label -> Prop) (wn : win) (m : list Z) (cur id h : Z) : Prop :=
  h = 0 \/ exists ls, reach wn m cur h ls /\ al id (lower_name ls).
Definition hints_ok (al : Z -> list label -> Prop) (nr : bool) (wn : win) (m : list Z) (cur : Z) (hs : list Z) : Prop :=
  zlen hs = 16 /\ forall id h, (id = 0 -> nr = true) -> zget hs id = Some h -> hint_ok al wn m cur id h.
Definition ctx (al : Z -> list label -> Prop) (nr : bool) (wn : win) (m : list Z) (cur : Z) (oc : option compr) : Prop :=
  match oc with
  | None => True
  | Some c => suffix_ok wn m cur c /\ (exists qs, flat_at wn m cur 12 qs) /\ hints_ok al nr wn m cur (c_hints c)
  end.
Definition sized (wn : win) (s : st) : Prop :=
  bytes (s_mem s) /\ free wn (s_dst s) /\ 0 <= s_avail s /\ s_dst s + s_avail s <= zlen (s_mem s) /\ zlen (s_mem s) <= 65535.
Definition good (al : Z -> list label -> Prop) (nr : bool) (wn : win) (s : st) : Prop :=
  sized wn s /\ ctx al nr wn (s_mem s) (s_dst s) (s_compr s).

(** [n] bytes were written *)
Definition adv (s s' : st) (n : Z) : Prop :=
  differ (s_mem s) (s_mem s') (s_dst s) (s_dst s + n) /\ s_dst s' = s_dst s + n /\ s_avail s' = s_avail s - n /\ 0 <= n <= s_avail s /\
  (s_compr s = None <-> s_compr s' = None).
Definition failed (s s' : st) : Prop := differ (s_mem s) (s_mem s') (s_dst s) (s_dst s + s_avail s).

Lemma hints_mono' : forall al nr w w' m m' cur cur' hs, hints_ok al nr w m cur hs -> wider cur w w' -> bytes m -> keeps w m m' cur -> 0 <= cur <= cur' -> cur' <= zlen m -> hints_ok al nr w' m' cur' hs.
Proof.
  intros al nr w w' m m' cur cur' hs [L H] HW HB K H1 H2. split; [auto|]. intros id h Hid Hg. destruct (H id h Hid Hg) as [|(ls & HR & Ha)]; [left; auto|right]. exists ls. split; [eapply reach_mono'; eauto|auto].
Qed.
Lemma ctx_mono' : forall al nr w w' m m' cur cur' oc, ctx al nr w m cur oc -> wider cur w w' -> bytes m -> keeps w m m' cur -> 0 <= cur <= cur' -> cur' <= zlen m -> ctx al nr w' m' cur' oc.
Proof.
  intros al nr w w' m m' cur cur' [c|] H HW HB K H1 H2; cbn in *; [|auto]. destruct H as (HS & (qs & HQ) & HH). split; [eapply suffix_mono'; eauto|]. split; [exists qs; eapply flat_mono'; eauto|]. eapply hints_mono'; eauto.
Qed.
Lemma ctx_mono : forall al nr w m m' cur cur' oc a b, ctx al nr w m cur oc -> bytes m -> differ m m' a b -> 0 <= cur <= cur' -> cur' <= zlen m -> cur <= a -> ctx al nr w m' cur' oc.
Proof. intros. eapply ctx_mono'; eauto; [apply wider_refl|eapply differ_keeps; eauto]. Qed.
Lemma ctx_to_suffix : forall al nr w m cur oc, ctx al nr w m cur oc -> ctx_suffix w m cur oc.
Proof. intros al nr w m cur [c|]; cbn; tauto. Qed.

Lemma free_more : forall w a b, free w a -> a <= b -> free w b. Proof. unfold free; intros; lia. Qed.
Lemma sized_adv : forall wn s s' n, sized wn s -> adv s s' n -> sized wn s'.
Proof.
  intros wn s s' n (HB & HF & Ha & Hl & H64) ((DL & DB & _) & Sd & Sa & Hn & _). unfold sized. rewrite Sd, Sa, DL. split; [auto|]. split; [eapply free_more; eauto; lia|]. lia.
Qed.
Lemma good_adv : forall al nr wn s s' n, good al nr wn s -> adv s s' n -> s_compr s' = s_compr s -> good al nr wn s'.
Proof.
  intros al nr wn s s' n [HS HC] HA Hc. split; [eapply sized_adv; eauto|]. rewrite Hc. destruct HA as (D & Sd & Sa & Hn & _). rewrite Sd. destruct HS as (HB & (HF & _) & Ha & Hl & H64). eapply ctx_mono; eauto; lia.
Qed.
Lemma adv_trans : forall s s1 s2 a b, adv s s1 a -> adv s1 s2 b -> adv s s2 (a + b).
Proof.
  intros s s1 s2 a b (D1 & Sd1 & Sa1 & Hn1 & C1) (D2 & Sd2 & Sa2 & Hn2 & C2). split; [|split; [lia|split; [lia|split; [lia|tauto]]]].
  eapply differ_trans; [eapply differ_wide with (a' := s_dst s) (b' := s_dst s + (a + b)); [exact D1|lia|lia]|eapply differ_wide with (a' := s_dst s) (b' := s_dst s + (a + b)); [exact D2|lia|lia]|lia|lia].
Qed.
Lemma adv_failed : forall s s1 s2 a, adv s s1 a -> failed s1 s2 -> failed s s2.
Proof.
  intros s s1 s2 a (D1 & Sd1 & Sa1 & Hn1 & C1) D2. unfold failed in *. rewrite Sd1, Sa1 in D2. eapply differ_trans; [eapply differ_wide with (a' := s_dst s) (b' := s_dst s + s_avail s); [exact D1|lia|lia]|eapply differ_wide with (a' := s_dst s) (b' := s_dst s + s_avail s); [exact D2|lia|lia]|lia|lia].
Qed.
Lemma failed_refl : forall s, failed s s. Proof. intros. apply differ_refl. Qed.

Lemma set_ptr_spec : forall al nr wn s c id wat size ls cur, s_compr s = Some c -> ctx al nr wn (s_mem s) cur (Some c) -> bytes (s_mem s) -> 0 <= cur <= zlen (s_mem s) -> 0 <= wat < 65536 -> 0 <= id ->
  (exists b, zget (s_mem s) wat = Some b /\ ((b <= 63 /\ (wat + size < PTR_MAX -> reach wn (s_mem s) cur wat ls)) \/
     (192 <= b /\ exists b2, zget (s_mem s) (wat + 1) = Some b2 /\ reach wn (s_mem s) cur ((b - 192) * 256 + b2) ls))) ->
  al id (lower_name ls) ->
  exists c', compr_set_ptr id wat size s = Done tt (with_compr s (Some c')) /\ ctx al nr wn (s_mem s) cur (Some c').
Proof.
  intros al nr wn s c id wat size ls cur Hc HC HB Hcur Hw Hid (b & Hb & HH) Hal. unfold compr_set_ptr. unfold bind at 1. cbn [get]. rewrite Hc. unfold bind at 1. rewrite (rd_ok _ _ _ Hb). cbn [lift].
  assert (byte b) by (eapply zget_byte; eauto). rewrite is_pointer_byte by auto.
  assert (P : exists off, (if 192 <=? b then do* lo := lift (rd (s_mem s) (wat + 1)) in ret (get_pointer b lo) else ret (u16 wat)) s = Done off s /\ (off + size < PTR_MAX -> reach wn (s_mem s) cur off ls)).
  { destruct HH as [[H1 H2]|(H1 & b2 & H2 & H3)].
    - exists wat. replace (192 <=? b) with false by lia. split; [|auto]. unfold ret, u16. rewrite Z.mod_small by lia. auto.
    - exists ((b - 192) * 256 + b2). replace (192 <=? b) with true by lia. split; [|auto]. unfold bind. rewrite (rd_ok _ _ _ H2). cbn [lift]. assert (byte b2) by (eapply zget_byte; eauto). rewrite get_pointer_val by auto. reflexivity. }
  destruct P as (off & EP & HR). unfold bind. unfold bind in EP. rewrite EP. eexists. split; [reflexivity|]. cbn [ctx c_pos c_labels c_hints] in *. destruct HC as (HS & HQ & [HL HH']). split; [exact HS|]. split; [exact HQ|].
  unfold compr_hint_set. destruct ((id <? HINT_COUNT) && (off + size <? PTR_MAX)) eqn:E; [|split; auto]. unfold HINT_COUNT in E.
  split; [rewrite zlen_overwrite; change (zlen [off]) with 1; lia|]. intros i h Hi Hg. rewrite zget_overwrite in Hg by (change (zlen [off]) with 1; lia). change (zlen [off]) with 1 in Hg.
  destruct ((id <=? i) && (i <? id + 1)) eqn:E2; [|auto]. replace (i - id) with 0 in Hg by lia. assert (Hoff : h = off) by (cbn in Hg; congruence). subst h. assert (i = id) by lia. subst i. right. exists ls. split; [apply HR; lia|auto].
Qed.

(** ** The owner *)
Definition name_at (wn : win) (s s' : st) (n : Z) (ls ls' : list label) : Prop :=
  1 <= n <= name_size ls /\ encodes (view wn (s_mem s') (s_dst s + n)) true (s_dst s) ls' n /\ legal_name ls' /\ lower_name ls' = lower_name ls /\ name_size ls' = name_size ls.

Lemma legal_size : forall ls ls', legal_name ls -> legal_labels ls' -> name_size ls' = name_size ls -> legal_name ls'.
Proof. intros ls ls' [H1 H2] H3 H4. split; [auto|]. unfold KNOT_DNAME_MAXLEN in *. lia. Qed.

(** a pointer written in place of a name *)
Lemma pointer_name : forall al nr wn s ptr ls ls', good al nr wn s -> 2 <= s_avail s -> legal_name ls -> ls <> [] -> reach wn (s_mem s) (s_dst s) ptr ls' -> lower_name ls' = lower_name ls ->
  exists s', put_pointer (s_dst s) ptr s = Done tt s' /\ step s s' (s_dst s) (s_dst s + 2) /\ encodes (view wn (s_mem s') (s_dst s + 2)) true (s_dst s) ls' 2 /\ legal_name ls' /\ name_size ls' = name_size ls /\
    ctx al nr wn (s_mem s') (s_dst s + 2) (s_compr s').
Proof.
  intros al nr wn s ptr ls ls' [(HB & HF & Ha & Hl & H64) HC] Hav HL Hne HR Hlow. pose proof HF as (Hd & _). pose proof (reach_pos _ _ _ _ _ HR ltac:(lia)) as HP. pose proof (lim_le (s_dst s)). pose proof (lim_max (s_dst s)). pose proof (lim_pos _ Hd).
  destruct (put_pointer_spec (s_dst s) ptr s ltac:(lia) ltac:(lia) ltac:(lia)) as (s' & E & St & hi & b2 & Z1 & Z2 & Hhi & Hv). exists s'. split; [exact E|]. split; [exact St|]. pose proof St as (D & Sd & Sa & Sc). pose proof D as (DL & DB & DD).
  destruct HR as (k & HR). pose proof (encodes_legal _ _ _ _ _ HR) as HLg.
  assert (NS : name_size ls' = name_size ls) by (rewrite <- (lower_name_size ls'), Hlow; apply lower_name_size).
  split. { eapply enc_ptr with (hi := hi) (lo := b2); auto.
    - rewrite zget_view by lia. replace (_ && _) with true by lia. rewrite (free_visible wn (s_dst s)) by (auto; lia). auto.
    - rewrite zget_view by lia. replace (_ && _) with true by lia. rewrite (free_visible wn (s_dst s)) by (auto; lia). auto.
    - lia.
    - rewrite Hv. apply view_mono with (m := s_mem s) (c := lim (s_dst s)); auto; try lia; [|exact HR]. intros. apply DD. lia. }
  split; [apply (legal_size ls); auto|]. split; [auto|]. rewrite Sc. eapply ctx_mono; eauto; lia.
Qed.

Lemma write_owner_spec : forall al nr wn s ls j, good al nr wn s -> legal_name ls -> (nr = true <-> ls <> []) -> (forall x, al 0 x <-> x = lower_name ls) ->
  match write_owner (dwire ls ++ j) s with
  | Done _ s' => exists n ls', adv s s' n /\ name_at wn s s' n ls ls' /\ good al nr wn s' /\ (s_compr s = None -> ls' = ls /\ n = name_size ls)
  | Fail e s' => e = KNOT_ESPACE /\ s_avail s < name_size ls /\ failed s s'
  | _ => False
  end.
Proof.
  intros al nr wn s ls j HG HL Hnr Hal. pose proof HG as ((HB & HF & Ha & Hl & H64) & HC). pose proof HF as (Hd & _). pose proof (name_size_ge1 ls) as N1. pose proof HL as [HLL HLS].
  unfold write_owner. unfold bind at 1.
  assert (R0 : exists c0, rd0 (dwire ls ++ j) = Ok c0 /\ (c0 =? 0) = negb nr /\ (nr = true -> 3 <= name_size ls)).
  { destruct ls as [|l ls]; [exists 0; split; [reflexivity|]; destruct nr; [exfalso; apply Hnr; reflexivity|split; [auto|discriminate]]|]. exists (zlen l). rewrite nm_rd0. split; [auto|].
    inversion HLL as [|? ? HL1 _]; subst. rewrite legal_nonzero by auto. destruct nr; [split; [auto|intros _; apply name_size_ge3; auto]|]. exfalso. assert (false = true) by (apply Hnr; discriminate). discriminate. }
  destruct R0 as (c0 & -> & Hc0 & Hn3). cbn [lift]. rewrite Hc0, negb_involutive.
  assert (OP : exists h, (if nr then compr_get_ptr 0 else ret 0) s = Done h s /\ (h = 0 \/ exists c ls', s_compr s = Some c /\ nr = true /\ reach wn (s_mem s) (s_dst s) h ls' /\ lower_name ls' = lower_name ls)).
  { destruct nr; [|exists 0; split; [reflexivity|auto]]. unfold compr_get_ptr, bind. cbn [get]. destruct (s_compr s) as [c|] eqn:Ec; [|exists 0; split; [reflexivity|auto]].
    cbn [ctx] in HC. destruct HC as (_ & _ & [HL16 HH]). unfold compr_hint. cbn [Z.ltb HINT_COUNT]. change (0 <? HINT_COUNT) with true. cbv iota. destruct (zget_in_range (c_hints c) 0 ltac:(lia)) as [h Hh]. exists h. rewrite (rd_ok _ _ _ Hh). split; [reflexivity|].
    destruct (HH 0 h ltac:(auto) Hh) as [|(ls' & HR & Hx)]; [auto|]. right. exists c, ls'. split; [auto|]. split; [auto|]. split; [auto|]. apply Hal. auto. }
  destruct OP as (h & EO & HO). unfold bind at 1. rewrite EO. unfold bind at 1. cbn [get]. 
  destruct (h >? 0) eqn:Eh.
  { destruct HO as [|(c & ls' & Ec & Enr & HR & Hlow)]; [lia|]. specialize (Hn3 Enr). destruct (2 >? s_avail s) eqn:E2; [cbn; split; [auto|split; [lia|apply failed_refl]]|].
    assert (Hne : ls <> []) by (apply Hnr; auto). destruct (pointer_name al nr wn s h ls ls' HG ltac:(lia) HL Hne HR Hlow) as (s' & EP & (D & Sd & Sa & Sc) & HE & HL' & NS & HC').
    unfold bind. rewrite EP. unfold move. exists 2, ls'.
    assert (A : adv s {| s_mem := s_mem s'; s_dst := s_dst s' + 2; s_avail := s_avail s' - 2; s_compr := s_compr s' |} 2) by (split; cbn [s_mem s_dst s_avail s_compr]; [auto|split; [lia|split; [lia|split; [lia|rewrite Sc; tauto]]]]).
    split; [exact A|]. split; [split; [lia|]; cbn [s_mem]; auto|]. split; [split; [eapply sized_adv; [|exact A]; repeat split; auto; apply HF|cbn [s_mem s_dst s_compr]; rewrite Sd; auto]|]. intros; congruence. }
  (* the same owner as before *)
  assert (EQ : exists eqb, (match s_compr s with Some c => if negb (c_pos c =? 0) && nr then lift (dname_equal_wire (s_mem s) (dwire ls ++ j) (c_pos c)) else ret false | None => ret false end) s = Done eqb s /\
     (eqb = true -> exists c ss, s_compr s = Some c /\ nr = true /\ flat_at wn (s_mem s) (s_dst s) (c_pos c) ss /\ ls = low ss)).
  { destruct (s_compr s) as [c|] eqn:Ec; [|exists false; split; [reflexivity|discriminate]]. destruct (negb (c_pos c =? 0) && nr) eqn:E; [|exists false; split; [reflexivity|discriminate]].
    cbn [ctx] in HC. destruct HC as ((ss & HFl & _) & _). pose proof HFl as ((k & HE) & _). pose proof (lim_le (s_dst s)). pose proof (lim_pos _ Hd).
    destruct (equal_spec wn (s_mem s) (lim (s_dst s)) ls ss (c_pos c) k j HB ltac:(lia) HLL HE) as (b & -> & Hb). exists b. split; [reflexivity|]. intros ->. exists c, ss. split; [auto|]. split; [destruct nr; auto; rewrite andb_false_r in E; discriminate|]. split; [auto|]. apply Hb. auto. }
  destruct EQ as (eqb & EE & HEQ). unfold bind at 1. rewrite EE.
  assert (PUT : forall s1, good al nr wn s1 -> s_mem s1 = s_mem s -> s_dst s1 = s_dst s -> s_avail s1 = s_avail s -> (s_compr s = None <-> s_compr s1 = None) ->
     match (do* written := compr_put_dname (dwire ls ++ j) (s_dst s) (dname_max (s_avail s)) true in do* _ := compr_set_ptr 0 (s_dst s) (u16 written) in move written) s1 with
     | Done _ s' => exists n ls', adv s s' n /\ name_at wn s s' n ls ls' /\ good al nr wn s' /\ (s_compr s = None -> ls' = ls /\ n = name_size ls)
     | Fail e s' => e = KNOT_ESPACE /\ s_avail s < name_size ls /\ failed s s'
     | _ => False end).
  { intros s1 [HS1 HC1] M1 D1 A1 C1. assert (ML : zlen (s_mem s1) = zlen (s_mem s)) by (rewrite M1; auto). unfold dname_max, KNOT_DNAME_MAXLEN in *. unfold bind at 1. rewrite <- D1, <- A1.
    pose proof (put_dname_spec wn s1 ls j (Z.min (s_avail s1) 255) true ltac:(rewrite M1; auto) ltac:(rewrite D1; auto) ltac:(rewrite D1, A1, M1; lia) ltac:(rewrite M1; auto) HL (ctx_to_suffix _ _ _ _ _ _ HC1)) as PD.
    destruct (compr_put_dname (dwire ls ++ j) (s_dst s1) (Z.min (s_avail s1) 255) true s1) as [n s2|e s2| |]; try contradiction.
    2: { destruct PD as (-> & Hgt & (D & _)). split; [auto|]. split; [lia|]. unfold failed. rewrite <- M1, <- D1, <- A1. eapply differ_wide; [exact D|lia|lia]. }
    destruct PD as (Hn & Hn2 & ls' & (D & Sd & Sa & HE & HLg & Hlow & NS & HX & HH & HHd) & Hex). unfold bind at 1. pose proof D as (DL & DB & DD).
    assert (U : u16 n = n) by (unfold u16; rewrite Z.mod_small; lia). rewrite U.
    assert (HC2 : ctx al nr wn (s_mem s2) (s_dst s + n) (s_compr s2)).
    { destruct (s_compr s1) as [c1|] eqn:Ec1; destruct (s_compr s2) as [c2|]; try contradiction; [|exact I]. cbn [ctx ctx_suffix same_hints] in *. destruct HC1 as (_ & (qs & HQ) & HHn). rewrite <- D1. split; [exact HX|].
      split; [exists qs; eapply flat_mono; [exact HQ|rewrite M1; auto|exact D|lia|lia|lia]|]. rewrite HH. eapply hints_mono'; [exact HHn|apply wider_refl|rewrite M1; auto|eapply differ_keeps; [exact D|lia]|lia|lia]. }
    assert (SP : exists s3, compr_set_ptr 0 (s_dst s1) n s2 = Done tt s3 /\ s_mem s3 = s_mem s2 /\ s_dst s3 = s_dst s2 /\ s_avail s3 = s_avail s2 /\ (s_compr s2 = None <-> s_compr s3 = None) /\ ctx al nr wn (s_mem s3) (s_dst s + n) (s_compr s3)).
    { destruct (s_compr s2) as [c2|] eqn:Ec2.
      - destruct (set_ptr_spec al nr wn s2 c2 0 (s_dst s1) n ls' (s_dst s + n) Ec2 HC2 ltac:(apply DB; rewrite M1; auto) ltac:(lia) ltac:(lia) ltac:(lia)) as (c' & E & HC3).
        + destruct HHd as (b & Hb & HH'). exists b. split; [auto|]. destruct HH' as [HH'|(HH' & b2 & Hb2 & HR)]; [left; split; [auto|]|right; split; [auto|]; exists b2; split; [auto|]].
          * intros Hlt. exists n. replace (lim (s_dst s + n)) with (s_dst s1 + n) by (unfold lim; lia). exact HE.
          * eapply reach_mono'; [exact HR|apply wider_refl|apply DB; rewrite M1; auto|split; auto|lia|lia].
        + apply Hal. auto.
        + eexists. split; [exact E|]. cbn [with_compr s_mem s_dst s_avail s_compr]. split; [auto|]. split; [auto|]. split; [auto|]. split; [split; discriminate|auto].
      - exists s2. unfold compr_set_ptr, bind. cbn [get]. rewrite Ec2. split; [reflexivity|]. split; [auto|]. split; [auto|]. split; [auto|]. split; [tauto|auto]. }
    destruct SP as (s3 & -> & M3 & D3 & A3 & C3 & HC3). unfold bind, move. exists n, ls'.
    assert (CC : s_compr s = None <-> s_compr s3 = None). { rewrite C1, <- C3. destruct (s_compr s1), (s_compr s2); try contradiction; split; congruence. }
    assert (A : adv s {| s_mem := s_mem s3; s_dst := s_dst s3 + n; s_avail := s_avail s3 - n; s_compr := s_compr s3 |} n).
    { split; cbn [s_mem s_dst s_avail s_compr]; [rewrite M3, <- M1, <- D1; auto|]. split; [lia|]. split; [lia|]. split; [lia|exact CC]. }
    split; [exact A|]. split. { split; [lia|]. cbn [s_mem]. rewrite M3, <- D1. split; [auto|]. split; [apply (legal_size ls); auto|auto]. }
    split. { split; [eapply sized_adv; [|exact A]; repeat split; auto; apply HF|]. cbn [s_mem s_dst s_compr]. rewrite D3, Sd, D1. exact HC3. }
    intros Hnone. apply Hex. right. apply C1. auto. }
  destruct (s_compr s) as [c|] eqn:Ec.
  - destruct eqb.
    + destruct (HEQ eq_refl) as (c' & ss & Ec' & Enr & HFl & Hls). injection Ec' as <-. specialize (Hn3 Enr). destruct (2 >? s_avail s) eqn:E2; [cbn; split; [auto|split; [lia|apply failed_refl]]|].
      assert (Hne : ls <> []) by (apply Hnr; auto). pose proof HFl as (HR & HPl & _). assert (Hlow : lower_name ss = lower_name ls) by (rewrite Hls, lower_low; auto; destruct HR as (k & HR); eapply encodes_legal; eauto).
      destruct (pointer_name al nr wn s (c_pos c) ls ss HG ltac:(lia) HL Hne HR Hlow) as (s' & EP & (D & Sd & Sa & Sc) & HE & HL' & NS & HC').
      unfold bind at 1. rewrite EP. unfold bind at 1. rewrite dname_size_spec by auto. cbn [lift]. pose proof D as (DL & DB & DD). pose proof (reach_pos _ _ _ _ _ HR ltac:(lia)) as HP. pose proof (lim_le (s_dst s)). pose proof (lim_max (s_dst s)).
      rewrite Ec in Sc. rewrite Sc in HC'. unfold bind at 1.
      destruct (set_ptr_spec al nr wn s' c 0 (c_pos c) (u16 (name_size ls)) ss (s_dst s + 2) Sc HC' (DB HB) ltac:(lia) ltac:(lia) ltac:(lia)) as (c' & -> & HC3).
      { assert (HFl' : flat_at wn (s_mem s') (s_dst s + 2) (c_pos c) ss) by (eapply flat_mono; eauto; lia). destruct HFl' as (HR' & (b & Hb & Hle) & _). exists b.
        assert (Hbn : b <> MASK). { intros ->. destruct HR' as (k & HE'). inversion HE' as [? Hx|? lab ? ? HLg Hx|? ? ? ? ? ? Hx]; subst; rewrite Hb in Hx; injection Hx; unfold MASK; intros; try lia. pose proof (zlen_nonneg lab). lia. }
        apply in_view in Hb; [|unfold lim, PTR_MAX; lia|auto]. split; [tauto|]. left. split; [auto|]. intros _. auto. }
      { apply Hal. auto. }
      unfold move. cbn [with_compr s_mem s_dst s_avail s_compr]. exists 2, ss.
      assert (A : adv s {| s_mem := s_mem s'; s_dst := s_dst s' + 2; s_avail := s_avail s' - 2; s_compr := Some c' |} 2) by (split; cbn [s_mem s_dst s_avail s_compr]; [auto|split; [lia|split; [lia|split; [lia|rewrite Ec; split; discriminate]]]]).
      split; [exact A|]. split; [split; [lia|]; cbn [s_mem]; auto|]. split; [split; [eapply sized_adv; [|exact A]; repeat split; auto; apply HF|cbn [s_mem s_dst s_compr]; rewrite Sd; auto]|]. intros; congruence.
    + (* the suffix is set to the question *)
      cbn [ctx] in HC. destruct HC as (_ & (qs & HQ) & HHn). pose proof HQ as ((k & HE) & HPl & HSz). pose proof (lim_le (s_dst s)). pose proof (lim_pos _ Hd).
      unfold bind at 1 2. rewrite (labels_spec wn (s_mem s) (lim (s_dst s)) qs 12 k HB ltac:(lia) HSz HE HPl). cbn [lift].
      pose proof (size_labels qs (encodes_legal _ _ _ _ _ HE) HSz). assert (U8 : u8 (zlen qs) = zlen qs) by (unfold u8; pose proof (zlen_nonneg qs); rewrite Z.mod_small; lia). rewrite U8.
      apply PUT; cbn [with_compr s_mem s_dst s_avail s_compr]; auto; [|split; discriminate]. split; [repeat split; auto; apply HF|]. cbn [with_compr s_mem s_dst s_compr ctx c_hints c_pos c_labels]. split; [exists qs; auto|]. split; [exists qs; auto|auto].
  - unfold bind at 1. cbn [ret]. apply PUT; auto. rewrite Ec. tauto.
Qed.
