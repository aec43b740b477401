From Verif Require Import Base TrafoModel TrafoSpec TrafoProofs JsonModel JsonSpec JsonProofs.

Lemma lex_comma : forall w ty c s r, w_stack w = (ty, c) :: s -> lex Idle (comma w ++ r) = omap (first_comma c []) (lex Idle r).
Proof.
  intros w ty c s r E. unfold comma, first_comma. rewrite E. destruct (c =? 0); [rewrite omap_nil; auto|]. reflexivity.
Qed.
Lemma delim_lead : forall ind w r, w_wrap w = true -> delim (comma w ++ nl ind w ++ r) /\ comma w ++ nl ind w ++ r <> [].
Proof.
  intros ind w r E. unfold nl. rewrite E. unfold comma. destruct (w_stack w) as [|[t c] s]; [split; [reflexivity|discriminate]|].
  destruct (c =? 0); split; try reflexivity; discriminate.
Qed.
Lemma delim_app : forall a b, delim a -> delim b -> delim (a ++ b).
Proof. intros [|x a] b; simpl; auto. Qed.
Lemma first_comma_app : forall c a, first_comma c [] ++ a = first_comma c a.
Proof. intros c a. unfold first_comma. destruct (c =? 0); auto. Qed.

Lemma list_nil : forall h, good_list h [] [].
Proof.
  intros h ind w ty c s Hi E Hc Hw Hd. exists [], []. split; [|auto]. cbn [run]. destruct w as [o st wr]. simpl in *. subst. rewrite app_nil_r.
  change (zlen (@nil doc)) with 0. rewrite Z.add_0_r. auto.
Qed.
Lemma obj_nil : forall h, good_obj h [] [].
Proof.
  intros h ind w ty c s Hi E Hc Hw Hd. exists [], []. split; [|auto]. cbn [run]. destruct w as [o st wr]. simpl in *. subst. rewrite app_nil_r.
  change (zlen (@nil (list Z * doc))) with 0. rewrite Z.add_0_r. auto.
Qed.
Lemma list_cons : forall h d l cs cs', good_value h None d cs -> good_list h l cs' -> good_list h (d :: l) (cs ++ cs').
Proof.
  intros h d l cs cs' HV HL ind w ty c s Hi E Hc Hw Hd.
  destruct (HV ind w Hi I Hd) as (t1 & ts1 & E1 & L1 & F1 & V1). rewrite E in E1. cbn [bump ktext app] in E1.
  destruct (HL ind (mkw (w_out w ++ comma w ++ nl ind w ++ t1) ((ty, c + 1) :: s) true) ty (c + 1) s Hi eq_refl ltac:(lia) eq_refl) as (t2 & ts2 & E2 & L2).
  { simpl. rewrite E in Hd. simpl in Hd. lia. }
  exists (comma w ++ nl ind w ++ t1 ++ t2), (match l with [] => ts1 | _ => ts1 ++ TComma :: ts2 end). split; [|split; [|split; [|split; [|split]]]].
  - rewrite run_app, E1. cbn [rbind]. rewrite E2. cbn [w_out]. rewrite <- !app_assoc. rewrite zlen_cons. do 3 f_equal. f_equal. lia.
  - intros r D. rewrite <- !app_assoc. rewrite (lex_comma w ty c s) by auto. rewrite lex_ws by (apply white_nl; auto).
    destruct l as [|d' l].
    + subst t2. cbn [app]. rewrite L1 by auto. rewrite omap_omap, first_comma_app. auto.
    + destruct L2 as (L2 & D2 & _). rewrite L1 by (apply delim_app; auto). rewrite L2 by auto. unfold first_comma at 2. replace (c + 1 =? 0) with false by lia.
      rewrite !omap_omap, <- ?app_assoc, first_comma_app. auto.
  - apply delim_lead; auto.
  - apply delim_lead; auto.
  - destruct F1 as (t & ts' & -> & N1 & N2). destruct l; [exists t, ts'; auto|exists t, (ts' ++ TComma :: ts2); auto].
  - intros f r Hf. destruct f as [|f]; [lia|]. cbn [elements]. destruct l as [|d' l].
    + rewrite V1 by lia. auto.
    + destruct L2 as (_ & _ & _ & _ & V2). rewrite app_length in Hf. simpl in Hf. rewrite <- app_assoc. cbn [app]. rewrite V1 by lia. rewrite V2 by lia. auto.
Qed.
Lemma lex_key : forall k r, plain k -> lex Idle (ktext (Some k) ++ r) = omap [TStr k; TColon] (lex Idle r).
Proof.
  intros k r H. unfold ktext. rewrite <- app_assoc. rewrite lex_str by (apply plain_plain0; auto). cbn [app].
  change (lex Idle (58 :: 32 :: r)) with (omap [TColon] (lex Idle ([32] ++ r))). rewrite lex_ws by (repeat constructor). rewrite omap_omap. auto.
Qed.
Lemma obj_cons : forall h k d l cs cs', plain k -> k <> [] -> good_value h (Some k) d cs -> good_obj h l cs' -> good_obj h ((k, d) :: l) (cs ++ cs').
Proof.
  intros h k d l cs cs' Hk Nk HV HL ind w ty c s Hi E Hc Hw Hd.
  destruct (HV ind w Hi (conj Hk Nk) Hd) as (t1 & ts1 & E1 & L1 & F1 & V1). rewrite E in E1. cbn [bump] in E1.
  destruct (HL ind (mkw (w_out w ++ comma w ++ nl ind w ++ ktext (Some k) ++ t1) ((ty, c + 1) :: s) true) ty (c + 1) s Hi eq_refl ltac:(lia) eq_refl) as (t2 & ts2 & E2 & L2).
  { simpl. rewrite E in Hd. simpl in Hd. lia. }
  exists (comma w ++ nl ind w ++ ktext (Some k) ++ t1 ++ t2), (TStr k :: TColon :: match l with [] => ts1 | _ => ts1 ++ TComma :: ts2 end). split; [|split; [|split; [|split; [|split]]]].
  - rewrite run_app, E1. cbn [rbind]. rewrite E2. cbn [w_out]. rewrite <- !app_assoc. rewrite zlen_cons. do 3 f_equal. f_equal. lia.
  - intros r D. rewrite <- !app_assoc. rewrite (lex_comma w ty c s) by auto. rewrite lex_ws by (apply white_nl; auto). rewrite lex_key by auto.
    destruct l as [|d' l].
    + subst t2. cbn [app]. rewrite L1 by auto. rewrite !omap_omap, <- ?app_assoc, first_comma_app. auto.
    + destruct L2 as (L2 & D2 & _). rewrite L1 by (apply delim_app; auto). rewrite L2 by auto. unfold first_comma at 2. replace (c + 1 =? 0) with false by lia.
      rewrite !omap_omap, <- ?app_assoc, first_comma_app. auto.
  - apply delim_lead; auto.
  - apply delim_lead; auto.
  - eexists _, _. split; [reflexivity|]. split; discriminate.
  - intros f r Hf. destruct f as [|f]; [lia|]. cbn [app members]. destruct l as [|d' l].
    + rewrite V1 by (simpl in Hf; lia). auto.
    + destruct L2 as (_ & _ & _ & _ & V2). cbn [length] in Hf. rewrite app_length in Hf. simpl in Hf. rewrite <- app_assoc. cbn [app]. rewrite V1 by lia. rewrite V2 by lia. auto.
Qed.

Lemma all_good : (forall h k d cs, writes h k d cs -> good_value h k d cs) /\ (forall h l cs, writes_list h l cs -> good_list h l cs) /\
  (forall h l cs, writes_obj h l cs -> good_obj h l cs).
Proof.
  apply writes_all.
  - intros h k. eapply simple_value; [intros; reflexivity|apply lexes_word; [discriminate|repeat constructor]|discriminate|discriminate|reflexivity].
  - intros h k b. eapply simple_value; [intros; reflexivity|apply lexes_word; [destruct b; discriminate|destruct b; repeat constructor]|discriminate|discriminate|destruct b; reflexivity].
  - intros h k n Hn. destruct (word_num n Hn) as (W1 & W2 & W3). eapply simple_value; [intros; reflexivity|apply lexes_word; auto|discriminate|discriminate|].
    intros f r. cbn [value]. rewrite W1. auto.
  - intros h k s Hs. eapply simple_value; [intros ind w; cbn [do_call]; rewrite (cstr_plain s Hs); reflexivity|apply lexes_str; apply plain_plain0; auto|discriminate|discriminate|reflexivity].
  - intros h k s Hs. eapply simple_value; [intros; reflexivity|apply lexes_str; auto|discriminate|discriminate|reflexivity].
  - intros h k l cs _ HL.
    eapply (block_value h k (CList k) 91 BLOCK_LIST 93 TList TListEnd cs (DList l) true
      (fun ts => (l = [] /\ ts = []) \/ ((exists t ts', ts = t :: ts' /\ t <> TListEnd /\ t <> TObjEnd) /\ forall f r, (2 * length ts + 1 <= f)%nat -> elements f (ts ++ TListEnd :: r) = Some (l, r))));
      try reflexivity; try discriminate.
    + intros ind w c s Hi E -> Hw Hd. destruct (HL ind w BLOCK_LIST 0 s Hi E ltac:(lia) Hw Hd) as (txt & ts & E1 & L1). destruct l as [|d l].
      * exists txt, [], (0 + zlen (@nil doc)). split; auto. split; [|left; auto]. subst. intros r _. rewrite omap_nil. auto.
      * exists txt, ts, (0 + zlen (d :: l)). split; auto. destruct L1 as (A & _ & _ & B & C). split; auto.
    + intros ts f r [[-> ->]|[(t & ts' & -> & N1 & N2) V]] Hf; destruct f as [|f]; try lia; [reflexivity|].
      cbn [value]. specialize (V f r ltac:(lia)). cbn [app] in *. destruct t; try congruence; rewrite V; auto.
  - intros h k l cs _ HL.
    eapply (block_value h k (CObject k) 123 BLOCK_OBJECT 125 TObj TObjEnd cs (DObj l) true
      (fun ts => (l = [] /\ ts = []) \/ ((exists t ts', ts = t :: ts' /\ t <> TListEnd /\ t <> TObjEnd) /\ forall f r, (2 * length ts + 1 <= f)%nat -> members f (ts ++ TObjEnd :: r) = Some (l, r))));
      try reflexivity; try discriminate.
    + intros ind w c s Hi E -> Hw Hd. destruct (HL ind w BLOCK_OBJECT 0 s Hi E ltac:(lia) Hw Hd) as (txt & ts & E1 & L1). destruct l as [|d l].
      * exists txt, [], (0 + zlen (@nil (list Z * doc))). split; auto. split; [|left; auto]. subst. intros r _. rewrite omap_nil. auto.
      * exists txt, ts, (0 + zlen (d :: l)). split; auto. destruct L1 as (A & _ & _ & B & C). split; auto.
    + intros ts f r [[-> ->]|[(t & ts' & -> & N1 & N2) V]] Hf; destruct f as [|f]; try lia; [reflexivity|].
      cbn [value]. specialize (V f r ltac:(lia)). cbn [app] in *. destruct t; try congruence; rewrite V; auto.
  - apply list_nil.
  - intros. apply list_cons; auto.
  - apply obj_nil.
  - intros. apply obj_cons; auto.
Qed.
