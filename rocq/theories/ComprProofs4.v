(** Writing of records: the RDATA and the whole RRset. *)
From Verif Require Import Base DnameModel DnameSpec DnameProofs DnameProofs2 WireModel WireProofs RrwireModel RrwireSpec RrwireProofs RrwireProofs2 RrwireProofs3 ComprModel ComprProofs ComprProofs2 ComprProofs3.

Lemma good_sized : forall al nr wn s, good al nr wn s -> sized wn s. Proof. intros al nr wn s [H _]; auto. Qed.

Lemma put_move : forall al nr wn s l, good al nr wn s -> bytes l -> zlen l <= s_avail s ->
  exists s', (do* _ := put (s_dst s) l in move (zlen l)) s = Done tt s' /\ adv s s' (zlen l) /\ s_compr s' = s_compr s /\ holds (s_mem s') (s_dst s) l /\ good al nr wn s'.
Proof.
  intros al nr wn s l HG HBl Hl. pose proof HG as ((HB & (Hd & _) & Ha & Hle & H64) & HC). pose proof (zlen_nonneg l). unfold bind. rewrite put_ok by lia. unfold move. eexists. split; [reflexivity|]. cbn [with_mem s_mem s_dst s_avail s_compr].
  set (s' := {| s_mem := _; s_dst := _; s_avail := _; s_compr := _ |}).
  assert (A : adv s s' (zlen l)). { split; [apply differ_overwrite; auto; lia|]. cbn [s' s_mem s_dst s_avail s_compr]. split; [lia|]. split; [lia|]. split; [lia|tauto]. }
  split; [exact A|]. split; [auto|]. split; [apply holds_overwrite; lia|]. eapply good_adv; eauto.
Qed.

Lemma write_be_spec : forall al nr wn s n v, good al nr wn s -> 0 <= n ->
  (n <= s_avail s /\ exists s', write_be n v s = Done tt s' /\ adv s s' n /\ s_compr s' = s_compr s /\ holds (s_mem s') (s_dst s) (be (Z.to_nat n) v) /\ good al nr wn s') \/
  (s_avail s < n /\ write_be n v s = Fail KNOT_ESPACE s).
Proof.
  intros al nr wn s n v HG Hn. unfold write_be. unfold bind at 1 3. cbn [get]. destruct (s_avail s <? n) eqn:E; [right; split; [lia|reflexivity]|left]. split; [lia|].
  assert (L : zlen (be (Z.to_nat n) v) = n) by (rewrite be_length; lia).
  destruct (put_move al nr wn s (be (Z.to_nat n) v) HG (be_bytes _ _) ltac:(lia)) as (s' & E1 & A & C & H & G). rewrite L in *. exists s'. auto.
Qed.

Lemma write_fixed_spec : forall al nr wn s l rest, good al nr wn s -> bytes l ->
  (zlen l <= s_avail s /\ exists s', write_fixed (l ++ rest) (zlen l) s = Done rest s' /\ adv s s' (zlen l) /\ s_compr s' = s_compr s /\ holds (s_mem s') (s_dst s) l /\ good al nr wn s') \/
  (s_avail s < zlen l /\ write_fixed (l ++ rest) (zlen l) s = Fail KNOT_ESPACE s).
Proof.
  intros al nr wn s l rest HG HB. 
  assert (EQ : write_fixed (l ++ rest) (zlen l) s = if zlen l >? zlen (l ++ rest) then Fail KNOT_EMALF s else if zlen l >? s_avail s then Fail KNOT_ESPACE s else
    (do* l' := lift (take (l ++ rest) (zlen l)) in do* r := lift (advance (l ++ rest) (zlen l)) in do* _ := put (s_dst s) l' in do* _ := move (zlen l) in ret r) s)
    by (unfold write_fixed, bind at 1; cbn [get]; destruct (zlen l >? zlen (l ++ rest)); [reflexivity|]; destruct (zlen l >? s_avail s); reflexivity).
  rewrite EQ. clear EQ. rewrite zlen_app. pose proof (zlen_nonneg rest). replace (zlen l >? zlen l + zlen rest) with false by lia.
  destruct (zlen l >? s_avail s) eqn:E; [right; split; [lia|reflexivity]|left]. split; [lia|]. unfold bind at 1 2. rewrite RrwireProofs2.take_app, RrwireProofs2.advance_app. cbn [lift].
  destruct (put_move al nr wn s l HG HB ltac:(lia)) as (s' & E1 & A & C & H' & G). exists s'. split; [|auto].
  unfold bind in *. destruct (put (s_dst s) l s) as [u s1|? ?| |]; try discriminate. unfold move in *. cbn. unfold ret. congruence.
Qed.

(** ** Names in RDATA *)
Lemma compress_spec : forall al nr wn s ls rest use hint, good al nr wn s -> legal_name ls -> 0 <= hint -> (0 < hint) -> al hint (lower_name ls) ->
  match compress_rdata_dname (dwire ls ++ rest) use hint s with
  | Done r s' => r = rest /\ exists n ls', adv s s' n /\ name_at wn s s' n ls ls' /\ good al nr wn s' /\ (use = false \/ s_compr s = None -> ls' = ls /\ n = name_size ls)
  | Fail e s' => e = KNOT_ESPACE /\ s_avail s < name_size ls /\ failed s s'
  | _ => False
  end.
Proof.
  intros al nr wn s ls rest use hint HG HL Hh0 Hh Hal. pose proof HG as ((HB & HF & Ha & Hl & H64) & HC). pose proof HF as (Hd & _). pose proof (name_size_ge1 ls) as N1. pose proof HL as [HLL HLS].
  unfold compress_rdata_dname. unfold bind at 1. rewrite dname_size_spec by auto. cbn [lift]. unfold bind at 1. cbn [get]. unfold bind at 1. unfold dname_max, KNOT_DNAME_MAXLEN in *.
  pose proof (put_dname_spec wn s ls rest (Z.min (s_avail s) 255) use HB HF ltac:(lia) H64 HL (ctx_to_suffix _ _ _ _ _ _ HC)) as PD.
  destruct (compr_put_dname (dwire ls ++ rest) (s_dst s) (Z.min (s_avail s) 255) use s) as [n s2|e s2| |]; try contradiction.
  2: { destruct PD as (-> & Hgt & (D & _)). split; [auto|]. split; [lia|]. eapply differ_wide; [exact D|lia|lia]. }
  destruct PD as (Hn & Hn2 & ls' & (D & Sd & Sa & HE & HLg & Hlow & NS & HX & HH & HHd) & Hex). pose proof D as (DL & DB & DD).
  assert (U : u16 n = n) by (unfold u16; rewrite Z.mod_small; lia). rewrite U.
  assert (HC2 : ctx al nr wn (s_mem s2) (s_dst s + n) (s_compr s2)).
  { destruct (s_compr s) as [c1|] eqn:Ec1; destruct (s_compr s2) as [c2|]; try contradiction; [|exact I]. cbn [ctx ctx_suffix same_hints] in *. destruct HC as (_ & (qs & HQ) & HHn). split; [exact HX|].
    split; [exists qs; eapply flat_mono; [exact HQ|auto|exact D|lia|lia|lia]|]. rewrite HH. eapply hints_mono'; [exact HHn|apply wider_refl|auto|eapply differ_keeps; [exact D|lia]|lia|lia]. }
  assert (GP : exists h, compr_get_ptr hint s2 = Done h s2).
  { unfold compr_get_ptr, bind. cbn [get]. destruct (s_compr s2) as [c2|]; [|eexists; reflexivity]. unfold compr_hint. destruct (hint <? HINT_COUNT) eqn:E16; [|eexists; reflexivity]. unfold HINT_COUNT in E16. cbn [ctx] in HC2. destruct HC2 as (_ & _ & [HL16 _]).
    destruct (zget_in_range (c_hints c2) hint ltac:(lia)) as [h Hg]. exists h. rewrite (rd_ok _ _ _ Hg). reflexivity. }
  destruct GP as (h & EG). unfold bind at 1. rewrite EG. unfold bind at 1.
  assert (SP : exists s3, (if h =? 0 then compr_set_ptr hint (s_dst s) n else ret tt) s2 = Done tt s3 /\ s_mem s3 = s_mem s2 /\ s_dst s3 = s_dst s2 /\ s_avail s3 = s_avail s2 /\ (s_compr s2 = None <-> s_compr s3 = None) /\ ctx al nr wn (s_mem s3) (s_dst s + n) (s_compr s3)).
  { destruct (h =? 0); [|exists s2; split; [reflexivity|]; split; [auto|]; split; [auto|]; split; [auto|]; split; [tauto|auto]].
    destruct (s_compr s2) as [c2|] eqn:Ec2.
    - destruct (set_ptr_spec al nr wn s2 c2 hint (s_dst s) n ls' (s_dst s + n) Ec2 HC2 (DB HB) ltac:(lia) ltac:(lia) ltac:(lia)) as (c' & E & HC3).
      + destruct HHd as (b & Hb & HH'). exists b. split; [auto|]. destruct HH' as [HH'|(HH' & b2 & Hb2 & HR)]; [left; split; [auto|]|right; split; [auto|]; exists b2; split; [auto|]].
        * intros Hlt. exists n. replace (lim (s_dst s + n)) with (s_dst s + n) by (unfold lim; lia). exact HE.
        * eapply reach_mono'; [exact HR|apply wider_refl|auto|split; auto|lia|lia].
      + rewrite Hlow. auto.
      + eexists. split; [exact E|]. cbn [with_compr s_mem s_dst s_avail s_compr]. split; [auto|]. split; [auto|]. split; [auto|]. split; [split; discriminate|auto].
    - exists s2. unfold compr_set_ptr, bind. cbn [get]. rewrite Ec2. split; [reflexivity|]. split; [auto|]. split; [auto|]. split; [auto|]. split; [tauto|auto]. }
  destruct SP as (s3 & -> & M3 & D3 & A3 & C3 & HC3). unfold bind, move.
  replace (advance (dwire ls ++ rest) (name_size ls)) with (Ok rest : res (list Z)) by (rewrite <- zlen_wire; symmetry; apply RrwireProofs2.advance_app). cbn [lift]. split; [auto|].
  assert (CC : s_compr s = None <-> s_compr s3 = None). { rewrite <- C3. destruct (s_compr s), (s_compr s2); try contradiction; split; congruence. }
  set (s' := {| s_mem := s_mem s3; s_dst := s_dst s3 + n; s_avail := s_avail s3 - n; s_compr := s_compr s3 |}).
  assert (A : adv s s' n).
  { split; cbn [s' s_mem s_dst s_avail s_compr]; [rewrite M3; auto|]. split; [lia|]. split; [lia|]. split; [lia|exact CC]. }
  exists n, ls'. split; [exact A|]. split. { split; [lia|]. cbn [s' s_mem]. rewrite M3. split; [auto|]. split; [apply (legal_size ls); auto|auto]. }
  split. { split; [eapply sized_adv; [|exact A]; repeat split; auto; apply HF|]. cbn [s' s_mem s_dst s_compr]. rewrite D3, Sd. exact HC3. }
  auto.
Qed.

(** ** Pieces *)
Definition data_bytes (ps : list piece) : Prop := Forall (fun p => match p with PData l => bytes l | PName _ => True end) ps.
Lemma pieces_up : forall v v' e e' pos ps next, (forall i b, zget v i = Some b -> b = MASK \/ byte b) -> (forall i b, b <> MASK -> zget v i = Some b -> zget v' i = Some b) -> zlen v <= zlen v' -> e <= e' -> 0 <= e <= zlen v -> data_bytes ps ->
  pieces_at v e pos ps next -> pieces_at v' e' pos ps next.
Proof.
  intros v v' e e' pos ps next HB HM HL He He0 HD H. induction H.
  - constructor.
  - inversion HD as [|? ? HD1 HD2]; subst. constructor; auto; try lia. intros i Hi. specialize (H2 i Hi). destruct (zget_in_range l i Hi) as [b Hb]. pose proof (zget_byte _ _ _ HD1 Hb) as Hbb. rewrite Hb in *. apply HM; auto. unfold byte, MASK in *. lia.
  - inversion HD as [|? ? HD1 HD2]; subst. apply pa_name with (n := n); auto. revert H. apply enc_mono.
    + intros i b Hb. apply zget_firstn_some in Hb. eauto.
    + intros i b Hb Hg. pose proof (zget_some _ _ _ Hg) as Hr. rewrite zlen_zfirstn in Hr by lia. rewrite zget_zfirstn in Hg by lia. rewrite zget_zfirstn by lia. auto.
Qed.
Lemma view_up : forall wn wn' m m' c c', bytes m -> wider c wn wn' -> 0 <= c <= c' -> c <= zlen m -> c' <= zlen m' -> (forall i, 0 <= i < c -> hidden wn i = false -> zget m' i = zget m i) ->
  (forall i b, zget (view wn m c) i = Some b -> b = MASK \/ byte b) /\ (forall i b, b <> MASK -> zget (view wn m c) i = Some b -> zget (view wn' m' c') i = Some b).
Proof.
  intros wn wn' m m' c c' HB HW H1 H2 H3 H4. split; [intros; eapply view_byte; eauto; lia|]. intros i b Hb Hg. apply in_view in Hg; [|lia|auto]. destruct Hg as (Hg & HR & HH). rewrite zget_view by lia. replace (_ && _) with true by lia. rewrite (HW i HR HH), H4; auto.
Qed.
Lemma vpieces_mono : forall wn wn' m m' c c' pos ps next, bytes m -> wider c wn wn' -> 0 <= c <= c' -> c <= zlen m -> c' <= zlen m' -> (forall i, 0 <= i < c -> hidden wn i = false -> zget m' i = zget m i) -> data_bytes ps ->
  pieces_at (view wn m c) c pos ps next -> pieces_at (view wn' m' c') c' pos ps next.
Proof.
  intros wn wn' m m' c c' pos ps next HB HW H1 H2 H3 H4 HD. destruct (view_up wn wn' m m' c c' HB HW H1 H2 H3 H4) as [U1 U2]. apply pieces_up; auto; rewrite ?zlen_view; lia.
Qed.
Lemma pieces_e : forall m e e' pos ps next, e <= e' -> pieces_at (zfirstn e m) e pos ps next -> e <= zlen m -> 0 <= e -> pieces_at m e' pos ps next.
Proof.
  intros m e e' pos ps next He H Hm H0. induction H.
  - constructor.
  - rewrite zlen_zfirstn in H2 by lia. constructor; auto; try lia. intros i Hi. specialize (H3 i Hi). rewrite zget_zfirstn in H3 by lia. auto.
  - apply pa_name with (n := n); auto. revert H. apply encodes_mono. intros i b Hg. apply zget_firstn_some in Hg. pose proof (zget_some _ _ _ Hg) as Hr. rewrite zlen_zfirstn in Hr by lia. rewrite zget_zfirstn in Hg by lia. rewrite zget_zfirstn by lia. auto.
Qed.
Lemma fits_data : forall bl ps, fits bl ps -> data_bytes ps.
Proof. intros bl ps H. induction H; constructor; auto; constructor. Qed.
Lemma flat_size_lower : forall ps ps', map lower_piece ps' = map lower_piece ps -> zlen (flat ps') = zlen (flat ps).
Proof. intros ps ps' H. rewrite <- (flat_lower ps'), H. apply flat_lower. Qed.

(** ** The blocks *)
Definition wblock (b : block) (src : list Z) (hint : Z) : st -> out (list Z) :=
  match b with
  | BCompr => compress_rdata_dname src true hint
  | BDecompr | BName => compress_rdata_dname src false hint
  | BNaptr => write_naptr src
  | BRem => write_fixed src (zlen src)
  | BFixed n => write_fixed src n
  end.
Lemma traverse_write_cons : forall b bl src hint s, traverse_write (b :: bl) src hint s = (do* src := wblock b src hint in traverse_write bl src hint) s.
Proof. intros [| | | | |]; reflexivity. Qed.

Lemma naptr_prefix : forall l rest, naptr_at l (zlen l) -> bytes l -> bytes rest -> zlen (l ++ rest) < 2 ^ 63 -> naptr_header_size (l ++ rest) = Ok (zlen l).
Proof.
  intros l rest HN HB HR HS. destruct (naptr_spec (l ++ rest) ltac:(apply bytes_app; split; auto) HS) as [(n & En & Hn)|(_ & Hx)].
  - assert (n = zlen l); [|congruence]. eapply (naptr_complete (l ++ rest)); [apply zfirstn_app_exact|apply bytes_app; split; auto|auto|rewrite zlen_app; pose proof (zlen_nonneg rest); lia|exact HN|exact En].
  - exfalso. apply (Hx (zlen l)). destruct HN as (a & b & c & Ga & Gb & Gc & H1 & H2). pose proof (zget_some _ _ _ Ga). pose proof (zget_some _ _ _ Gb). pose proof (zget_some _ _ _ Gc).
    exists a, b, c. rewrite !zget_app_l by lia. rewrite zlen_app. pose proof (zlen_nonneg rest). repeat split; auto; lia.
Qed.

Definition exact_block (s : st) (b : block) : Prop := s_compr s = None \/ b <> BCompr.

Lemma wblock_spec : forall al nr wn s b p rest hint, good al nr wn s -> block_ok b p -> bytes rest -> zlen (piece_bytes p ++ rest) <= 65535 -> 0 < hint -> (forall ls, p = PName ls -> al hint (lower_name ls)) ->
  (b = BRem -> rest = []) ->
  match wblock b (piece_bytes p ++ rest) hint s with
  | Done r s' => r = rest /\ exists n p', adv s s' n /\ n <= zlen (piece_bytes p) /\ good al nr wn s' /\ block_ok b p' /\ lower_piece p' = lower_piece p /\
      pieces_at (view wn (s_mem s') (s_dst s + n)) (s_dst s + n) (s_dst s) [p'] (s_dst s + n) /\ (exact_block s b -> p' = p /\ n = zlen (piece_bytes p))
  | Fail e s' => e = KNOT_ESPACE /\ s_avail s < zlen (piece_bytes p) /\ failed s s'
  | _ => False
  end.
Proof.
  intros al nr wn s b p rest hint HG HO HR HS Hh Hal HRem. pose proof HG as ((HB & HF & Ha & Hl & H64) & HC). pose proof HF as (Hd & _).
  assert (FIX : forall l, p = PData l -> bytes l ->
    match write_fixed (l ++ rest) (zlen l) s with
    | Done r s' => r = rest /\ exists n p', adv s s' n /\ n <= zlen (piece_bytes p) /\ good al nr wn s' /\ block_ok b p' /\ lower_piece p' = lower_piece p /\
        pieces_at (view wn (s_mem s') (s_dst s + n)) (s_dst s + n) (s_dst s) [p'] (s_dst s + n) /\ (exact_block s b -> p' = p /\ n = zlen (piece_bytes p))
    | Fail e s' => e = KNOT_ESPACE /\ s_avail s < zlen (piece_bytes p) /\ failed s s'
    | _ => False end).
  { intros l -> HBl. cbn [piece_bytes]. destruct (write_fixed_spec al nr wn s l rest HG HBl) as [(Hle & s' & -> & A & C & HH & G)|(Hgt & ->)].
    - split; [auto|]. exists (zlen l), (PData l). split; [auto|]. split; [lia|]. split; [auto|]. split; [auto|]. split; [auto|]. split; [|auto].
      destruct A as ((DL & _) & Sd & Sa & Hn & _). apply pa_data; try (rewrite ?zlen_view; lia).
      + apply holds_view; auto; lia.
      + constructor.
    - split; [auto|]. split; [auto|]. apply failed_refl. }
  assert (NAME : forall ls use, p = PName ls -> legal_name ls -> (b = BCompr \/ b = BDecompr \/ b = BName) -> (exact_block s b -> use = false \/ s_compr s = None) ->
    match compress_rdata_dname (dwire ls ++ rest) use hint s with
    | Done r s' => r = rest /\ exists n p', adv s s' n /\ n <= zlen (piece_bytes p) /\ good al nr wn s' /\ block_ok b p' /\ lower_piece p' = lower_piece p /\
        pieces_at (view wn (s_mem s') (s_dst s + n)) (s_dst s + n) (s_dst s) [p'] (s_dst s + n) /\ (exact_block s b -> p' = p /\ n = zlen (piece_bytes p))
    | Fail e s' => e = KNOT_ESPACE /\ s_avail s < zlen (piece_bytes p) /\ failed s s'
    | _ => False end).
  { intros ls use -> HL Hb Hex. cbn [piece_bytes]. rewrite zlen_wire. pose proof (compress_spec al nr wn s ls rest use hint HG HL ltac:(lia) Hh (Hal ls eq_refl)) as CS.
    destruct (compress_rdata_dname (dwire ls ++ rest) use hint s) as [r s'|e s'| |]; try contradiction; [|exact CS]. destruct CS as (-> & n & ls' & A & (Hn & HE & HL' & Hlow & NS) & G & Hx).
    split; [auto|]. exists n, (PName ls'). split; [auto|]. split; [lia|]. split; [auto|]. split; [destruct Hb as [->|[->| ->]]; exact HL'|]. split; [cbn; rewrite Hlow; auto|].
    split. { pose proof A as ((DL & _) & _ & _ & Hn' & _). apply pa_name with (n := n); [|constructor]. revert HE. apply encodes_mono. intros i b' Hg. pose proof (zget_some _ _ _ Hg) as Hr. rewrite zlen_view in Hr by lia. rewrite zget_zfirstn by lia. auto. }
    intros HX. destruct (Hx (Hex HX)) as [-> ->]. auto. }
  destruct b as [n| | | | |]; destruct p as [l|ls]; cbn [block_ok] in HO; try contradiction; cbn [wblock piece_bytes] in *.
  - destruct HO as [<- HBl]. apply FIX; auto.
  - apply NAME; auto. intros [H|H]; [auto|congruence].
  - apply NAME; auto.
  - apply NAME; auto.
  - destruct HO as [HN HBl]. unfold write_naptr. unfold bind. rewrite naptr_prefix; auto; [|lia]. cbn [lift]. apply FIX; auto.
  - rewrite (HRem eq_refl) in *. specialize (FIX l eq_refl HO). rewrite app_nil_r in *. exact FIX.
Qed.

Lemma pieces_cons : forall m e pos p mid ps next, pieces_at m e pos [p] mid -> pieces_at m e mid ps next -> pieces_at m e pos (p :: ps) next.
Proof.
  intros m e pos p mid ps next H1 H2. inversion H1 as [|? l ? ? ? ? ? ? HX|? ls n ? ? HE HX]; subst.
  - assert (Hm : pos + zlen l = mid) by (inversion HX; auto). rewrite <- Hm in H2. constructor; auto.
  - assert (Hm : pos + n = mid) by (inversion HX; auto). rewrite <- Hm in H2. apply pa_name with (n := n); auto.
Qed.

Lemma traverse_write_spec : forall al nr wn bl ps hint s, fits bl ps -> good al nr wn s -> 0 < hint -> (forall ls, In (PName ls) ps -> al hint (lower_name ls)) -> zlen (flat ps) <= 65535 ->
  match traverse_write bl (flat ps) hint s with
  | Done r s' => r = [] /\ exists n ps', adv s s' n /\ n <= zlen (flat ps) /\ good al nr wn s' /\ fits bl ps' /\ map lower_piece ps' = map lower_piece ps /\
      pieces_at (view wn (s_mem s') (s_dst s + n)) (s_dst s + n) (s_dst s) ps' (s_dst s + n) /\ (s_compr s = None \/ ~ In BCompr bl -> ps' = ps /\ n = zlen (flat ps))
  | Fail e s' => e = KNOT_ESPACE /\ s_avail s < zlen (flat ps) /\ failed s s'
  | _ => False
  end.
Proof.
  intros al nr wn bl. induction bl as [|b bl IH]; intros ps hint s HFt HG Hh Hal HS.
  - inversion HFt; subst. cbn [traverse_write flat ret]. split; [auto|]. pose proof HG as ((HB & HF & Ha & Hl & H64) & HC). exists 0, []. replace (s_dst s + 0) with (s_dst s) by lia.
    split. { split; [apply differ_refl|]. split; [lia|]. split; [lia|]. split; [lia|tauto]. } split; [cbn; lia|]. split; [auto|]. split; [constructor|]. split; [auto|]. split; [constructor|auto].
  - destruct (fits_inv _ _ _ HFt) as (p & ps' & -> & HO & HR & HF'). rewrite traverse_write_cons, flat_cons. rewrite flat_cons in HS. unfold bind.
    pose proof (fits_bytes _ _ HF') as HBf. pose proof HG as ((HB & HF & Ha & Hl & H64) & HC). pose proof HF as (Hd & _).
    pose proof (wblock_spec al nr wn s b p (flat ps') hint HG HO HBf HS Hh ltac:(intros ls ->; apply Hal; left; auto) ltac:(intros Hb; rewrite (HR Hb); reflexivity)) as WB.
    destruct (wblock b (piece_bytes p ++ flat ps') hint s) as [r s1|e s1| |]; try contradiction.
    2: { destruct WB as (-> & Hgt & Hf). split; [auto|]. rewrite zlen_app. pose proof (zlen_nonneg (flat ps')). split; [lia|auto]. }
    destruct WB as (-> & n & p' & A & Hn & G & HO' & Hlow & HP & Hex). rewrite zlen_app in *. pose proof (zlen_nonneg (flat ps')). pose proof (zlen_nonneg (piece_bytes p)). pose proof A as (D & Sd & Sa & Hn' & CC). pose proof D as (DL & DB & _).
    specialize (IH ps' hint s1 HF' G Hh ltac:(intros ls Hin; apply Hal; right; auto) ltac:(lia)).
    destruct (traverse_write bl (flat ps') hint s1) as [r s'|e s'| |]; try contradiction.
    2: { destruct IH as (-> & Hgt & Hf). split; [auto|]. split; [lia|]. eapply adv_failed; eauto. }
    destruct IH as (-> & n2 & ps2 & A2 & Hn2 & G2 & HF2 & Hlow2 & HP2 & Hex2). split; [auto|]. pose proof A2 as (D2 & Sd2 & Sa2 & Hn2' & CC2). pose proof D2 as (DL2 & DB2 & DD2).
    exists (n + n2), (p' :: ps2). split; [eapply adv_trans; eauto|]. split; [lia|]. split; [auto|].
    split. { apply fits_cons; auto. - intros Hb. rewrite (HR Hb) in *. destruct ps2; [auto|discriminate].
      - intros Hb. subst b. inversion HFt; auto. match goal with H : is_name_block BRem |- _ => destruct H as [|[|]]; discriminate end. }
    split; [cbn [map]; rewrite Hlow, Hlow2; auto|].
    replace (s_dst s + (n + n2)) with (s_dst s1 + n2) by lia.
    split. { apply pieces_cons with (mid := s_dst s1); [|exact HP2]. rewrite Sd at 3. apply vpieces_mono with (wn := wn) (m := s_mem s1) (c := s_dst s + n); auto; try lia; [apply wider_refl| |].
      - intros. apply DD2. lia.
      - constructor; [|constructor]. destruct b, p'; cbn in HO'; tauto. }
    intros Hx. destruct Hex as [-> ->]; [destruct Hx as [Hx|Hx]; [left; auto|right; intros ->; apply Hx; left; auto]|]. destruct Hex2 as [-> ->]; [destruct Hx as [Hx|Hx]; [left; tauto|right; intros Hin; apply Hx; right; auto]|]. split; [auto|lia].
Qed.
