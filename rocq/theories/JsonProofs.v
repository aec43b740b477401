From Verif Require Import Base TrafoModel TrafoSpec TrafoProofs JsonModel JsonSpec.

Lemma omap_omap : forall a b o, omap a (omap b o) = omap (a ++ b) o.
Proof. intros a b [l|]; simpl; auto. rewrite app_assoc. auto. Qed.
Lemma omap_nil : forall o, omap [] o = o.
Proof. intros [l|]; auto. Qed.

Lemma lex_ws : forall u r, Forall (fun c => is_ws c = true) u -> lex Idle (u ++ r) = lex Idle r.
Proof. induction 1 as [|c u H _ IH]; auto. cbn [app lex step]. unfold idle. rewrite H, omap_nil. auto. Qed.
Lemma lex_to : forall s c l s', step s c = Some ([], s') -> lex s (c :: l) = lex s' l.
Proof. intros s c l s' H. cbn [lex]. rewrite H. apply omap_nil. Qed.
Lemma lex_esc : forall s acc r, plain0 s -> lex (Str acc) (flat_map esc s ++ r) = lex (Str (acc ++ s)) r.
Proof.
  induction s as [|c s IH]; intros acc r H; cbn [flat_map]; [rewrite app_nil_r; auto|]. inversion H as [|? ? Hc Hs]; subst.
  rewrite <- app_assoc. replace (acc ++ c :: s) with ((acc ++ [c]) ++ s) by (rewrite <- app_assoc; auto). rewrite <- IH by auto. unfold esc.
  destruct ((c =? 92) || (c =? 34)) eqn:E.
  - cbn [app]. rewrite (lex_to (Str acc) 92 _ (Esc acc)) by reflexivity. apply lex_to. unfold step. replace (c =? 117) with false by lia.
    unfold unesc. replace ((c =? 34) || (c =? 92) || (c =? 47)) with true by lia. auto.
  - destruct (c =? 0) eqn:E0.
    + assert (c = 0) by lia. subst c. cbn [app]. rewrite (lex_to (Str acc) 92 _ (Esc acc)) by reflexivity.
      rewrite (lex_to (Esc acc) 117 _ (Uni acc 3 0)) by reflexivity. rewrite (lex_to (Uni acc 3 0) 48 _ (Uni acc 2 0)) by reflexivity.
      rewrite (lex_to (Uni acc 2 0) 48 _ (Uni acc 1 0)) by reflexivity. rewrite (lex_to (Uni acc 1 0) 48 _ (Uni acc 0 0)) by reflexivity.
      apply lex_to. reflexivity.
    + cbn [app]. apply lex_to. unfold step. replace (c =? 34) with false by lia. replace (c =? 92) with false by lia. replace (c <? 32) with false by lia. auto.
Qed.
Lemma lex_str : forall s r, plain0 s -> lex Idle (escaped_print s true ++ r) = omap [TStr s] (lex Idle r).
Proof.
  intros s r H. unfold escaped_print. rewrite <- !app_assoc. cbn [app]. rewrite (lex_to Idle 34 _ (Str [])) by reflexivity.
  rewrite lex_esc by auto. reflexivity.
Qed.
Definition delim (r : list Z) : Prop := match r with [] => True | c :: _ => wordchar c = false end.
Lemma lex_word_more : forall w acc r, Forall (fun c => wordchar c = true) w -> delim r -> lex (Word acc) (w ++ r) = omap [TWord (acc ++ w)] (lex Idle r).
Proof.
  induction w as [|c w IH]; intros acc r H D.
  - rewrite app_nil_r. cbn [app]. destruct r as [|c r]; [auto|]. cbn [lex step]. simpl in D. rewrite D. destruct (idle c) as [[ts s]|]; auto. rewrite omap_omap. auto.
  - inversion H; subst. cbn [app lex step]. rewrite H2, omap_nil, IH by auto. rewrite <- app_assoc. auto.
Qed.
Lemma wordchar_idle : forall c, wordchar c = true -> idle c = Some ([], Word [c]).
Proof.
  intros c H. unfold idle. rewrite H. unfold wordchar in H. unfold is_ws.
  replace ((c =? 32) || (c =? 9) || (c =? 10) || (c =? 13)) with false by lia.
  replace (c =? 123) with false by lia. replace (c =? 125) with false by lia. replace (c =? 91) with false by lia.
  replace (c =? 93) with false by lia. replace (c =? 44) with false by lia. replace (c =? 58) with false by lia. replace (c =? 34) with false by lia. auto.
Qed.
Lemma lex_word : forall w r, w <> [] -> Forall (fun c => wordchar c = true) w -> delim r -> lex Idle (w ++ r) = omap [TWord w] (lex Idle r).
Proof.
  intros [|c w] r N H D; [congruence|]. inversion H; subst. cbn [app lex step]. rewrite wordchar_idle by auto. rewrite omap_nil, lex_word_more by auto. auto.
Qed.

(** Numbers *)
Lemma dec_value : forall t ds acc, Forall2 (digit_value 10) t ds -> dec acc t = Some (acc * 10 ^ zlen ds + TrafoSpec.value 10 ds).
Proof.
  intros t ds acc F. revert acc. induction F as [|c d t ds D F IH]; intros acc; cbn [dec TrafoSpec.value].
  - change (10 ^ zlen (@nil Z)) with 1. f_equal. lia.
  - assert (48 <= c <= 57 /\ d = c - 48) as [C1 C2] by (inversion D; subst; lia).
    replace ((48 <=? c) && (c <=? 57)) with true by lia. rewrite IH, zlen_cons, Z.pow_add_r by (try lia; apply zlen_nonneg). f_equal. subst d. ring.
Qed.
Lemma nat_of_numeral : forall n t, numeral 10 n t -> nat_of t = Some n.
Proof.
  intros n t (ds & F & V & N & Z0). unfold nat_of. destruct t as [|c r]; [congruence|].
  assert (X : (c =? 48) && negb (match r with [] => true | _ => false end) = false).
  { destruct Z0 as [E|E]; [inversion E; subst; auto|]. simpl in E. replace (c =? 48) with false by lia. auto. }
  rewrite X, (dec_value _ ds) by auto. f_equal. lia.
Qed.
Lemma digits_word : forall t, Forall (fun c => 48 <= c <= 57) t -> Forall (fun c => wordchar c = true) t.
Proof. intros t H. eapply Forall_impl; [|exact H]. intros c Hc. unfold wordchar. simpl in Hc. lia. Qed.
Lemma word_num : forall n, - 2 ^ 31 <= n < 2 ^ 64 -> word (print_dec n) = Some (DNum n) /\ print_dec n <> [] /\ Forall (fun c => wordchar c = true) (print_dec n).
Proof.
  intros n H. unfold print_dec. destruct (n <? 0) eqn:E.
  - pose proof (print_num_spec 10 (- n) ltac:(lia) ltac:(lia)) as P. pose proof (numeral_dec_chars _ _ P) as C. apply nat_of_numeral in P. repeat apply conj.
    + unfold word. repeat (destruct (list_eq_dec _ _ _) as [X|_]; [discriminate X|]). rewrite P. f_equal. f_equal. lia.
    + discriminate.
    + constructor; [reflexivity|]. apply digits_word. auto.
  - pose proof (print_num_spec 10 n ltac:(lia) ltac:(lia)) as P. pose proof (numeral_dec_chars _ _ P) as C. pose proof P as (_ & _ & _ & NE & _). apply nat_of_numeral in P. repeat apply conj; auto.
    + destruct (print_num 10 n) as [|c t]; [congruence|]. inversion C; subst. unfold word.
      repeat (destruct (list_eq_dec _ _ _) as [X|_]; [inversion X; lia|]).
      rewrite P. assert (c <> 45) by lia. destruct c as [|c|c]; auto. repeat (destruct c as [c|c|]; auto). congruence.
    + apply digits_word. auto.
Qed.

Lemma cstr_plain : forall s, plain s -> cstr s = s.
Proof. induction 1 as [|c s H _ IH]; auto. cbn [cstr]. replace (c =? 0) with false by lia. rewrite IH. auto. Qed.
Lemma plain_plain0 : forall s, plain s -> plain0 s.
Proof. intros s H. eapply Forall_impl; [|exact H]. simpl. auto. Qed.

(** What is written in front of a value *)
Definition white (u : list Z) : Prop := Forall (fun c => is_ws c = true) u.
Definition nl (ind : list Z) (w : jsonw) : list Z := if w_wrap w then 10 :: concat (repeat ind (length (w_stack w))) else [].
Definition comma (w : jsonw) : list Z := match w_stack w with (_, c) :: _ => if c =? 0 then [] else [44] | [] => [] end.
Definition ktext (k : option (list Z)) : list Z := match k with Some k => escaped_print k true ++ [58; 32] | None => [] end.
Definition bump (s : list (Z * Z)) : list (Z * Z) := match s with (t, c) :: s => (t, c + 1) :: s | [] => [] end.
Definition okkey (k : option (list Z)) : Prop := match k with Some k => plain k /\ k <> [] | None => True end.
Lemma align_key_spec : forall ind w k, okkey k -> align_key ind w k = mkw (w_out w ++ comma w ++ nl ind w ++ ktext k) (bump (w_stack w)) true.
Proof.
  intros ind [o s wr] k Hk. unfold align_key, comma, nl, ktext, bump, wrap, put. cbn [w_out w_stack w_wrap].
  assert (X : forall w0, w_wrap w0 = wr -> length (w_stack w0) = length s ->
    (if negb (w_wrap w0) then mkw (w_out w0) (w_stack w0) true else mkw (w_out w0 ++ 10 :: concat (repeat ind (length (w_stack w0)))) (w_stack w0) (w_wrap w0)) =
    mkw (w_out w0 ++ if wr then 10 :: concat (repeat ind (length s)) else []) (w_stack w0) true).
  { intros w0 <- <-. destruct (w_wrap w0); simpl; auto. rewrite app_nil_r. auto. }
  rewrite X by (destruct s as [|[t c] s]; auto).
  destruct k as [k|].
  - destruct Hk as [H1 H2]. rewrite (cstr_plain k H1). destruct k as [|a k]; [congruence|]. destruct s as [|[t c] s]; cbn [w_out w_stack w_wrap]; rewrite <- ?app_assoc; auto.
  - destruct s as [|[t c] s]; cbn [w_out w_stack w_wrap]; rewrite <- ?app_assoc, ?app_nil_r; auto.
Qed.
Lemma white_rep : forall ind n, white ind -> white (concat (repeat ind n)).
Proof. intros ind n H. induction n; simpl; [constructor|]. apply Forall_app; auto. Qed.
Lemma white_nl : forall ind w, white ind -> white (nl ind w).
Proof.
  intros ind w H. unfold nl. destruct (w_wrap w); [|constructor]. constructor; [auto|]. induction (length (w_stack w)); simpl; [constructor|]. apply Forall_app; auto.
Qed.
Lemma run_app : forall ind a b w, run ind (a ++ b) w = let* w := run ind a w in run ind b w.
Proof. induction a as [|c a IH]; intros b w; auto. cbn [app run]. destruct (do_call ind w c); cbn [rbind]; auto. Qed.

Scheme writes_mut := Induction for writes Sort Prop
with writes_list_mut := Induction for writes_list Sort Prop
with writes_obj_mut := Induction for writes_obj Sort Prop.
Combined Scheme writes_all from writes_mut, writes_list_mut, writes_obj_mut.

Definition lexes (txt : list Z) (ts : list token) : Prop := forall r, delim r -> lex Idle (txt ++ r) = omap ts (lex Idle r).
Definition good_value (h : nat) (k : option (list Z)) (d : doc) (cs : list call) : Prop :=
  forall ind w, white ind -> okkey k -> (length (w_stack w) + h <= 16)%nat ->
  exists txt ts, run ind cs w = Ok (mkw (w_out w ++ comma w ++ nl ind w ++ ktext k ++ txt) (bump (w_stack w)) true) /\
    lexes txt ts /\ (exists t ts', ts = t :: ts' /\ t <> TListEnd /\ t <> TObjEnd) /\
    forall f r, (2 * length ts <= f)%nat -> value f (ts ++ r) = Some (d, r).
Definition first_comma (c : Z) (ts : list token) : list token := if c =? 0 then ts else TComma :: ts.
Definition good_list (h : nat) (l : list doc) (cs : list call) : Prop :=
  forall ind w ty c s, white ind -> w_stack w = (ty, c) :: s -> 0 <= c -> w_wrap w = true -> (length (w_stack w) + h <= 16)%nat ->
  exists txt ts, run ind cs w = Ok (mkw (w_out w ++ txt) ((ty, c + zlen l) :: s) true) /\
    match l with
    | [] => txt = []
    | _ => lexes txt (first_comma c ts) /\ delim txt /\ txt <> [] /\ (exists t ts', ts = t :: ts' /\ t <> TListEnd /\ t <> TObjEnd) /\
           forall f r, (2 * length ts + 1 <= f)%nat -> elements f (ts ++ TListEnd :: r) = Some (l, r)
    end.
Definition good_obj (h : nat) (l : list (list Z * doc)) (cs : list call) : Prop :=
  forall ind w ty c s, white ind -> w_stack w = (ty, c) :: s -> 0 <= c -> w_wrap w = true -> (length (w_stack w) + h <= 16)%nat ->
  exists txt ts, run ind cs w = Ok (mkw (w_out w ++ txt) ((ty, c + zlen l) :: s) true) /\
    match l with
    | [] => txt = []
    | _ => lexes txt (first_comma c ts) /\ delim txt /\ txt <> [] /\ (exists t ts', ts = t :: ts' /\ t <> TListEnd /\ t <> TObjEnd) /\
           forall f r, (2 * length ts + 1 <= f)%nat -> members f (ts ++ TObjEnd :: r) = Some (l, r)
    end.

Lemma simple_value : forall h k d c txt t, (forall ind w, do_call ind w c = Ok (put (align_key ind w k) txt)) -> lexes txt [t] -> t <> TListEnd -> t <> TObjEnd ->
  (forall f r, value (S f) (t :: r) = Some (d, r)) -> good_value h k d [c].
Proof.
  intros h k d c txt t HC HL N1 N2 HV ind w Hi Hk _. exists txt, [t]. split; [|split; [auto|split; [exists t, []; auto|]]].
  - cbn [run]. rewrite HC. cbn [rbind]. rewrite align_key_spec by auto. unfold put. cbn [w_out w_stack w_wrap]. rewrite <- !app_assoc. auto.
  - intros f r Hf. destruct f as [|f]; [simpl in Hf; lia|]. apply HV.
Qed.
Lemma lexes_word : forall w, w <> [] -> Forall (fun c => wordchar c = true) w -> lexes w [TWord w].
Proof. intros w H1 H2 r D. apply lex_word; auto. Qed.
Lemma lexes_str : forall s, plain0 s -> lexes (escaped_print s true) [TStr s].
Proof. intros s H r D. apply lex_str; auto. Qed.

(** A block: the text between the brackets and the closing line *)
Lemma block_value : forall h k c0 open ty close (to te : token) (cs : list call) (d : doc) (empty : bool) (P : list token -> Prop),
  (forall ind w, do_call ind w c0 = start_block (put (align_key ind w k) [open]) ty) ->
  (if ty =? BLOCK_OBJECT then [125] else if ty =? BLOCK_LIST then [93] else []) = [close] ->
  (forall r, lex Idle (open :: r) = omap [to] (lex Idle r)) -> (forall r, lex Idle (close :: r) = omap [te] (lex Idle r)) ->
  wordchar close = false -> to <> TListEnd -> to <> TObjEnd ->
  (forall ind w c s, white ind -> w_stack w = (ty, c) :: s -> c = 0 -> w_wrap w = true -> (length (w_stack w) + h <= 16)%nat ->
     exists txt ts n, run ind cs w = Ok (mkw (w_out w ++ txt) ((ty, n) :: s) true) /\ lexes txt ts /\ P ts) ->
  (forall ts f r, P ts -> (2 * length ts + 4 <= f)%nat -> value f (to :: ts ++ te :: r) = Some (d, r)) ->
  good_value (S h) k d (c0 :: cs ++ [CEnd]).
Proof.
  intros h k c0 open ty close to te cs d empty P H0 HC HO HE Hw N1 N2 HR HV ind w Hi Hk Hd. cbn [run]. rewrite H0.
  unfold start_block, put. rewrite align_key_spec by auto. cbn [w_out w_stack w_wrap].
  assert (Hb : length (bump (w_stack w)) = length (w_stack w)) by (destruct (w_stack w) as [|[? ?] ?]; auto).
  replace (MAX_DEPTH - zlen (bump (w_stack w)) <=? 0) with false by (unfold MAX_DEPTH, zlen; rewrite Hb; lia). cbn [rbind].
  rewrite run_app. edestruct (HR ind (mkw ((w_out w ++ comma w ++ nl ind w ++ ktext k) ++ [open]) ((ty, 0) :: bump (w_stack w)) true)) as (txt & ts & n & E & L & HP); [auto|reflexivity|auto|auto|simpl; rewrite Hb; lia|].
  rewrite E. cbn [rbind run do_call w_stack w_out w_wrap]. unfold wrap, put. cbn [negb w_wrap w_out w_stack]. rewrite HC.
  set (e := 10 :: concat (repeat ind (length (bump (w_stack w))))).
  assert (We : white e). { unfold e. constructor; [auto|]. apply white_rep; auto. }
  exists (open :: txt ++ e ++ [close]), (to :: ts ++ [te]). split; [|split; [|split]].
  - f_equal. f_equal. rewrite <- !app_assoc. cbn [app]. auto.
  - intros r D. cbn [app]. rewrite HO. rewrite <- !app_assoc. rewrite L by (unfold e; simpl; auto). rewrite lex_ws by exact We. cbn [app]. rewrite HE.
    rewrite !omap_omap. cbn [app]. reflexivity.
  - exists to, (ts ++ [te]). auto.
  - intros f r Hf. cbn [app]. rewrite <- app_assoc. cbn [app]. apply HV; auto. cbn [length] in Hf. rewrite app_length in Hf. simpl in Hf. lia.
Qed.
