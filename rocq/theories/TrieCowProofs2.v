(** Proofs about the copy-on-write trie: the invariant of a transaction, pushing down. *)
From Verif Require Import Base TrieModel TrieSpec TrieProofs TrieProofs2 TrieProofs3 TrieProofs4 TrieCowModel TrieCowProofs.
From Coq Require Import Permutation.

Lemma nd_app : forall {A} (a b : list A), NoDup (a ++ b) <-> NoDup a /\ NoDup b /\ (forall x, In x a -> In x b -> False).
Proof.
  induction a as [|x a IH]; intros b; cbn [app]; [split; [intros; split; [constructor|split; [auto|intros ? []]]|tauto]|].
  rewrite !NoDup_cons_iff, IH, in_app_iff. split.
  - intros (N & A1 & A2 & A3). split; [tauto|]. split; [auto|]. intros y [<-|H] H2; [tauto|eauto].
  - intros ((N & A1) & A2 & A3). split; [intros [H|H]; [auto|apply (A3 x); cbn; auto]|]. split; [auto|]. split; [auto|]. intros y H H2. apply (A3 y); cbn; auto.
Qed.
Lemma nd_perm : forall {A} (l l' : list A), Permutation l l' -> NoDup l -> NoDup l'.
Proof. intros. eapply Permutation_NoDup; eauto. Qed.

(** *** the invariant *)
Definition oexcl (o : option gnode) := match o with Some g => excl g | None => [] end.
Definition oshr (o : option gnode) := match o with Some g => shr g | None => [] end.
Definition oshra (o : option gnode) := flat_map iaddr (oshr o).
Definition oholds h (o : option gnode) := match o with Some g => holds h g | None => True end.
Definition ogok (o : option gnode) := match o with Some g => gok g | None => True end.
Definition oalla (o : option gnode) := match o with Some g => alla g | None => [] end.
Record inv (h : heap) (go gn : option gnode) : Prop := {
  i_go : ogok go; i_gn : ogok gn; i_ho : oholds h go; i_hn : oholds h gn;
  i_perm : Permutation (oshr go) (oshr gn);
  i_nd : NoDup (oexcl go ++ oexcl gn ++ oshra gn);
  i_dom : forall a, h_get h a <> None -> In a (oexcl go ++ oexcl gn ++ oshra gn);
  i_rng : forall a, h_get h a <> None -> 0 < a < h_next h;
  i_next : 0 < h_next h }.

Lemma oalla_split : forall o, Permutation (oalla o) (oexcl o ++ oshra o).
Proof. intros [g|]; [apply alla_split|cbn; auto]. Qed.
Lemma oholds_live : forall h o a, oholds h o -> In a (oalla o) -> h_get h a <> None.
Proof. intros h [g|] a H I; [eapply holds_live; eauto|destruct I]. Qed.
Lemma oholds_ext : forall h h' o, (forall a, In a (oalla o) -> h_get h' a = h_get h a) -> oholds h o -> oholds h' o.
Proof. intros h h' [g|] E H; [eapply holds_ext; eauto|auto]. Qed.
Lemma inv_shra : forall h go gn, inv h go gn -> Permutation (oshra go) (oshra gn).
Proof. intros h go gn I. apply fm_perm_l. apply I. Qed.
Lemma inv_sym : forall h go gn, inv h go gn -> inv h gn go.
Proof.
  intros h go gn I. pose proof (inv_shra _ _ _ I) as PS. destruct I. assert (P : Permutation (oexcl gn ++ oexcl go ++ oshra go) (oexcl go ++ oexcl gn ++ oshra gn)) by (rewrite PS; apply perm_mid).
  constructor; auto; [symmetry; auto|eapply nd_perm; [symmetry; exact P|auto]|]. intros a Ha. eapply Permutation_in; [symmetry; exact P|]. auto.
Qed.
Lemma inv_live : forall h go gn a, inv h go gn -> (h_get h a <> None <-> In a (oexcl go ++ oexcl gn ++ oshra gn)).
Proof.
  intros h go gn a I. split; [apply I|]. intros H. rewrite !in_app_iff in H. destruct H as [H|H].
  - eapply oholds_live; [apply I|]. eapply Permutation_in; [symmetry; apply oalla_split|]. apply in_app_iff. auto.
  - eapply oholds_live; [apply (i_hn _ _ _ I)|]. eapply Permutation_in; [symmetry; apply oalla_split|]. apply in_app_iff. tauto.
Qed.
Lemma inv_fresh : forall h go gn, inv h go gn -> ~ In (h_next h) (oexcl go ++ oexcl gn ++ oshra gn).
Proof. intros h go gn I H. apply (inv_live _ _ _ _ I) in H. apply (i_rng _ _ _ I) in H. lia. Qed.
(** a change of objects which only the new tree owns *)
Lemma inv_update : forall h h' go gn gn', inv h go gn ->
  (forall a, ~ In a (oexcl gn) -> a < h_next h -> h_get h' a = h_get h a) ->
  ogok gn' -> oholds h' gn' -> Permutation (oshr gn') (oshr gn) -> NoDup (oexcl gn') ->
  (forall a, In a (oexcl gn') -> In a (oexcl gn) \/ h_next h <= a) ->
  (forall a, h_get h' a <> None -> In a (oexcl gn) \/ h_next h <= a -> In a (oexcl gn') /\ a < h_next h') ->
  h_next h <= h_next h' -> inv h' go gn'.
Proof.
  intros h h' go gn gn' I U OK HO P ND EI EL NX. pose proof (inv_shra _ _ _ I) as PS. assert (PS' : Permutation (oshra gn') (oshra gn)) by (apply fm_perm_l; auto).
  pose proof (fun a => inv_live h go gn a I) as LV. destruct I. apply nd_app in i_nd0. destruct i_nd0 as (N1 & N2 & N3). apply nd_app in N2. destruct N2 as (N2 & N4 & N5).
  assert (OLD : forall a, In a (oexcl go ++ oshra gn) -> ~ In a (oexcl gn) /\ 0 < a < h_next h).
  { intros a Ha. assert (In a (oexcl go ++ oexcl gn ++ oshra gn)) as IA by (rewrite !in_app_iff in *; tauto). split; [|apply i_rng0; apply LV; auto].
    intros C. apply in_app_iff in Ha. destruct Ha as [Ha|Ha]; [apply (N3 a); [auto|apply in_app_iff; auto]|apply (N5 a); auto]. }
  constructor; auto.
  - eapply oholds_ext; [|exact i_ho0]. intros a Ha. eapply Permutation_in in Ha; [|apply oalla_split]. assert (In a (oexcl go ++ oshra gn)) as X. { apply in_app_iff in Ha. apply in_app_iff. destruct Ha as [Ha|Ha]; [auto|]. right. eapply Permutation_in; [exact PS|exact Ha]. }
    destruct (OLD a X). apply U; [auto|lia].
  - rewrite i_perm0. symmetry. auto.
  - apply nd_app. split; [auto|]. split; [apply nd_app; split; [auto|]; split; [eapply nd_perm; [symmetry; exact PS'|auto]|]|].
    + intros x A B. assert (In x (oshra gn)) by (eapply Permutation_in; [exact PS'|exact B]). destruct (OLD x) as [O1 O2]; [apply in_app_iff; auto|]. destruct (EI x A); [tauto|lia].
    + intros x A B. destruct (OLD x) as [O1 O2]; [apply in_app_iff; auto|]. apply in_app_iff in B. destruct B as [B|B]; [destruct (EI x B); [tauto|lia]|]. apply (N3 x); auto. apply in_app_iff. right. eapply Permutation_in; [exact PS'|exact B].
  - intros a Ha. destruct (in_dec Z.eq_dec a (oexcl gn)) as [E|E]; [rewrite !in_app_iff; right; left; apply EL; auto|]. destruct (Z_lt_le_dec a (h_next h)) as [L|L]; [|rewrite !in_app_iff; right; left; apply EL; auto].
    rewrite U in Ha by auto. apply i_dom0 in Ha. rewrite !in_app_iff in *. destruct Ha as [Ha|[Ha|Ha]]; [auto|tauto|]. right. right. eapply Permutation_in; [symmetry; exact PS'|auto].
  - intros a Ha. destruct (in_dec Z.eq_dec a (oexcl gn)) as [E|E]; [split; [|apply EL; auto]|].
    + assert (h_get h a <> None) as X by (apply LV; rewrite !in_app_iff; auto). apply i_rng0 in X. lia.
    + destruct (Z_lt_le_dec a (h_next h)) as [L|L]; [rewrite U in Ha by auto; apply i_rng0 in Ha; lia|]. split; [lia|apply EL; auto].
  - lia.
Qed.

(** *** reading and writing the node in a context *)
Fixpoint rootw (fs : list frame) (w : word) : word :=
  match fs with [] => w | f :: fs => rootw fs (WBranch (f_i f) (f_b f) (f_a f)) end.
Definition fptr (fs : list frame) : ptr := match fs with [] => PRoot | f :: _ => PCell (f_a f) (zlen (f_l f)) end.
Lemma word_fill : forall fs g, word_of (fill fs g) = rootw fs (word_of g).
Proof. induction fs as [|f fs IH]; intros g; [auto|]. cbn. rewrite IH. auto. Qed.
Lemma cells_false : forall ws, cells false ws = map (mkc false) ws.
Proof. destruct ws; auto. Qed.
Lemma zlen_map : forall {A B} (f : A -> B) l, zlen (map f l) = zlen l.
Proof. intros. unfold zlen. rewrite map_length. auto. Qed.
Lemma zget_mid : forall {A} (l : list A) x r, zget (l ++ x :: r) (zlen l) = Some x.
Proof. intros. rewrite zget_app_r by lia. rewrite Z.sub_diag. apply zget_0. Qed.
Lemma zset_mid : forall {A} (l : list A) x y r, zset (l ++ x :: r) (zlen l) y = l ++ y :: r.
Proof.
  intros. unfold zset. rewrite zfirstn_app_exact by auto. f_equal. f_equal. replace (l ++ x :: r) with ((l ++ [x]) ++ r) by (rewrite <- app_assoc; auto).
  apply zskipn_app_exact. rewrite zlen_app. reflexivity.
Qed.
Lemma rd_focus : forall h fs w, fhold h fs w -> rd h (mkc false (rootw fs w)) (fptr fs) = Ok (mkc false w).
Proof.
  intros h [|f fs] w H; [reflexivity|]. cbn [fptr rd]. destruct H as (A & _). unfold h_arr. rewrite A. cbn [rbind]. rewrite cells_false, map_app. cbn [map].
  rewrite <- (zlen_map word_of (f_l f)), <- (zlen_map (mkc false) (map word_of (f_l f))), zget_mid. auto.
Qed.
Definition wr_get (h : heap) (fs : list frame) (w : word) (x : Z) : option obj :=
  match fs with
  | [] => h_get h x
  | f :: _ => if x =? f_a f then Some (OArr (cells false (map word_of (f_l f) ++ w :: map word_of (f_r f)))) else h_get h x
  end.
Lemma wr_focus : forall h fs w w', fhold h fs w -> exists h2, wr h (mkc false (rootw fs w)) (fptr fs) (mkc false w') = Ok (h2, mkc false (rootw fs w')) /\
  h_next h2 = h_next h /\ forall x, h_get h2 x = wr_get h fs w' x.
Proof.
  intros h [|f fs] w w' H; [exists h; auto|]. cbn [fptr wr rootw]. destruct H as (A & _). unfold h_arr. rewrite A. cbn [rbind]. rewrite !cells_false, !map_app. cbn [map].
  rewrite <- (zlen_map word_of (f_l f)), <- (zlen_map (mkc false) (map word_of (f_l f))), zget_mid, zset_mid. eexists. split; [reflexivity|]. split; [reflexivity|].
  intros x. cbn [h_set h_get wr_get]. rewrite !cells_false, !map_app. reflexivity.
Qed.
(** the context holds after the write, if nothing else of it changes *)
Lemma fhold_write : forall h h2 fs w w', fhold h fs w -> NoDup (fexcl fs ++ fshra fs) ->
  (forall x, In x (fexcl fs ++ fshra fs) -> h_get h2 x = wr_get h fs w' x) -> fhold h2 fs w'.
Proof.
  intros h h2 [|f fs] w w' H N E; [exact I|]. cbn [fhold] in *. destruct H as (A & B & C & D). cbn [fexcl app] in N. apply NoDup_cons_iff in N. destruct N as [N _].
  assert (A' : h_get h2 (f_a f) = Some (OArr (cells false (map word_of (f_l f) ++ w' :: map word_of (f_r f))))) by (rewrite E by (cbn; auto); cbn [wr_get]; rewrite Z.eqb_refl; auto).
  assert (E' : forall x, In x ((flat_map excl (f_l f) ++ flat_map excl (f_r f) ++ fexcl fs) ++ fshra (f :: fs)) -> h_get h2 x = h_get h x).
  { intros x Hx. rewrite E by (cbn; auto). cbn [wr_get]. destruct (x =? f_a f) eqn:EX; [|auto]. apply Z.eqb_eq in EX. subst. tauto. }
  split; [exact A'|]. set (h3 := mkh 0 (fun x => if x =? f_a f then Some (OArr (cells false (map word_of (f_l f) ++ w :: map word_of (f_r f)))) else h_get h2 x)).
  assert (F3 : fhold h3 (f :: fs) w).
  { apply (fhold_ext _ h); [|cbn [fhold]; auto]. intros x Hx. cbn [h3 h_get]. destruct (x =? f_a f) eqn:EX; [apply Z.eqb_eq in EX; subst; auto|]. apply E'. cbn [fexcl] in Hx. cbn [app] in Hx. destruct Hx as [Hx|Hx]; [lia|exact Hx]. }
  cbn [fhold] in F3. destruct F3 as (_ & B3 & C3 & D3).
  assert (Y : forall (l : list gnode) x a, In x l -> In a (alla x) -> In a (flat_map excl l ++ flat_map iaddr (flat_map shr l))).
  { intros l x a Hx Ha. eapply Permutation_in in Ha; [|apply alla_split]. apply in_app_iff in Ha. apply in_app_iff. destruct Ha as [Ha|Ha]; [left; apply in_flat_map; eauto|right].
    rewrite fm_fm. apply in_flat_map. exists x. auto. }
  assert (FS : fshra (f :: fs) = flat_map iaddr (flat_map shr (f_l f)) ++ flat_map iaddr (flat_map shr (f_r f)) ++ fshra fs) by (unfold fshra; cbn [fshr]; rewrite !fm_app; auto).
  assert (Z3 : forall x, x <> f_a f -> h_get h2 x = h_get h3 x) by (intros x Hx; cbn [h3 h_get]; replace (x =? f_a f) with false by lia; auto).
  assert (NA : forall x, In x ((flat_map excl (f_l f) ++ flat_map excl (f_r f) ++ fexcl fs) ++ fshra (f :: fs)) -> x <> f_a f) by (intros x Hx ->; auto).
  split; [|split].
  - rewrite Forall_forall in *. intros x Hx. eapply holds_ext; [|apply B3; auto]. intros a Ha. apply Z3, NA. apply (Y _ x a Hx) in Ha. rewrite FS. rewrite !in_app_iff in *. tauto.
  - rewrite Forall_forall in *. intros x Hx. eapply holds_ext; [|apply C3; auto]. intros a Ha. apply Z3, NA. apply (Y _ x a Hx) in Ha. rewrite FS. rewrite !in_app_iff in *. tauto.
  - eapply fhold_ext; [|exact D3]. intros a Ha. apply Z3, NA. rewrite FS. rewrite !in_app_iff in *. tauto.
Qed.
Lemma fptr_excl : forall fs h w w' x, wr_get h fs w' x <> h_get h x -> fhold h fs w -> In x (fexcl fs).
Proof. intros [|f fs] h w w' x H F; cbn in *; [congruence|]. destruct (x =? f_a f) eqn:E; [|congruence]. left. lia. Qed.

(** *** marking *)
Definition topa (g : gnode) : Z := match g with GL _ ka _ _ => ka | GB _ _ _ aa _ => aa end.
Lemma topa_alla : forall g, In (topa g) (alla g).
Proof. destruct g; cbn; auto. Qed.
Lemma word_setf : forall f g, word_of (setf f g) = word_of g.
Proof. destruct g; auto. Qed.
Lemma map_word_setf : forall f l, map word_of (map (setf f) l) = map word_of l.
Proof. intros. rewrite map_map. apply map_ext. intros. apply word_setf. Qed.
Lemma alla_setf : forall f g, alla (setf f g) = alla g.
Proof. destruct g; auto. Qed.
Lemma erase_setf : forall f g, erase (setf f g) = erase g.
Proof. destruct g; auto. Qed.
(** changing a flag *)
Definition flagged (h h' : heap) (f : bool) (g : gnode) : Prop :=
  h_next h' = h_next h /\ holds h' (setf f g) /\ forall x, x <> topa g -> h_get h' x = h_get h x.
Lemma holds_top : forall h h' f g, holds h g -> NoDup (alla g) ->
  h_get h' (topa g) = match g with GL _ _ k _ => Some (OKey f k) | GB _ _ _ _ tw => Some (OArr (cells f (map word_of tw))) end ->
  (forall x, x <> topa g -> h_get h' x = h_get h x) -> holds h' (setf f g).
Proof.
  intros h h' f [s ka k v|s i b aa tw] H N T E; [exact T|]. cbn [setf topa] in *. apply holds_B in H. apply holds_B. destruct H as (A & NE & F). split; [exact T|]. split; [auto|].
  cbn [alla] in N. apply NoDup_cons_iff in N. destruct N as [N _]. rewrite Forall_forall in *. intros x Hx. eapply holds_ext; [|apply F; auto]. intros a Ha. apply E. intros ->. apply N. apply in_flat_map. eauto.
Qed.
Lemma set_mark_spec : forall h s i b aa tw f, holds h (GB s i b aa tw) -> NoDup (alla (GB s i b aa tw)) ->
  exists h', set_mark h aa f = Ok h' /\ flagged h h' f (GB s i b aa tw).
Proof.
  intros h s i b aa tw f H N. pose proof H as H0. apply holds_B in H0. destruct H0 as (A & NE & _). unfold set_mark, h_arr. rewrite A. cbn [rbind]. destruct tw as [|c tw]; [congruence|]. cbn [map cells c_w]. eexists. split; [reflexivity|].
  split; [reflexivity|]. split.
  - eapply holds_top; [exact H|exact N| |]; cbn [topa h_set h_get]; [rewrite Z.eqb_refl; auto|]. intros x Hx. replace (x =? aa) with false by lia. auto.
  - intros x Hx. cbn [topa h_set h_get] in *. replace (x =? aa) with false by lia. auto.
Qed.
Lemma mark_cow_spec : forall h g, holds h g -> NoDup (alla g) -> exists h', mark_cow h (word_of g) = Ok h' /\ flagged h h' true g.
Proof.
  intros h [s ka k v|s i b aa tw] H N.
  - cbn [word_of mark_cow]. unfold h_key. cbn [holds] in H. rewrite H. cbn [rbind]. eexists. split; [reflexivity|]. split; [reflexivity|]. split; [cbn; rewrite Z.eqb_refl; auto|].
    intros x Hx. cbn in *. replace (x =? ka) with false by lia. auto.
  - cbn [word_of mark_cow]. apply (set_mark_spec h s i b aa tw true); auto.
Qed.
Lemma zget_cells : forall s l w r, exists f, zget (cells s (l ++ w :: r)) (zlen l) = Some (mkc f w).
Proof.
  intros s [|x l] w r; [exists s; reflexivity|]. cbn [app cells]. rewrite map_app. cbn [map]. exists false. change (mkc s x :: map (mkc false) l ++ mkc false w :: map (mkc false) r) with ((mkc s x :: map (mkc false) l) ++ mkc false w :: map (mkc false) r).
  replace (zlen (x :: l)) with (zlen (mkc s x :: map (mkc false) l)) by (rewrite !zlen_cons, zlen_map; auto). apply zget_mid.
Qed.
Lemma mark_children_spec : forall r l h s aa, h_get h aa = Some (OArr (cells s (map word_of (l ++ r)))) -> ~ In aa (flat_map alla r) -> NoDup (flat_map alla r) -> Forall (holds h) r ->
  exists h', mark_children h aa (zlen l) (length r) = Ok h' /\ h_next h' = h_next h /\ Forall (fun c => holds h' (setf true c)) r /\
    forall x, ~ In x (map topa r) -> h_get h' x = h_get h x.
Proof.
  induction r as [|c r IH]; intros l h s aa A NI ND F; [exists h; cbn; auto|]. cbn [length mark_children]. unfold rd, h_arr. rewrite A. cbn [rbind]. rewrite map_app. cbn [map].
  destruct (zget_cells s (map word_of l) (word_of c) (map word_of r)) as (f & G). rewrite zlen_map in G. rewrite G. cbn [rbind c_w]. inversion F as [|? ? Fc Fr]; subst. cbn [flat_map] in ND, NI. apply nd_app in ND. destruct ND as (N1 & N2 & N3). rewrite in_app_iff in NI.
  destruct (mark_cow_spec h c Fc N1) as (h1 & -> & (X1 & X2 & X3)). cbn [rbind].
  assert (TA : topa c <> aa) by (intros E; apply NI; left; rewrite <- E; apply topa_alla).
  destruct (IH (l ++ [c]) h1 s aa) as (h' & E & NX & F' & U).
  - rewrite <- app_assoc. cbn [app]. rewrite X3 by auto. exact A.
  - tauto.
  - auto.
  - rewrite Forall_forall in *. intros x Hx. eapply holds_ext; [|apply Fr; auto]. intros a Ha. apply X3. intros ->. apply (N3 (topa c)); [apply topa_alla|apply in_flat_map; eauto].
  - replace (zlen l + 1) with (zlen (l ++ [c])) by (rewrite zlen_app; reflexivity). exists h'. split; [exact E|]. split; [congruence|]. split.
    + constructor; [|auto]. eapply holds_ext; [|exact X2]. intros a Ha. apply U. rewrite alla_setf in Ha. intros C. apply in_map_iff in C. destruct C as (y & <- & Hy). apply (N3 (topa y)); auto. apply in_flat_map. exists y. split; [auto|apply topa_alla].
    + intros x Hx. cbn in Hx. rewrite U by tauto. apply X3. intros ->. tauto.
Qed.

(** *** pushing down one array *)
Lemma setf_facts : forall l, Forall clean l -> Forall gok (map (setf true) l) /\ flat_map excl (map (setf true) l) = [] /\
  flat_map iaddr (flat_map shr (map (setf true) l)) = flat_map alla l.
Proof.
  induction 1 as [|c l H F (A & B & C)]; [cbn; auto|]. cbn [map flat_map]. rewrite fm_app, B, C. split; [constructor; auto; destruct c as [s ka k v|s i b aa tw]; [exact I|apply clean_B in H; apply gok_B; tauto]|].
  destruct c; cbn; rewrite ?app_nil_r; auto.
Qed.
Lemma weight_nil : forall i b tw, branch_weight (Branch i b tw) = branch_weight (Branch i b []).
Proof. intros. unfold branch_weight. exact eq_refl. Qed.
Lemma firstn_len : forall {A} (l : list A), zfirstn (zlen l) l = l.
Proof. intros. unfold zfirstn, zlen. rewrite Nat2Z.id. apply firstn_all. Qed.
Lemma zlen_cells : forall s l, zlen (cells s l) = zlen l.
Proof. intros s [|w l]; [auto|]. cbn [cells]. rewrite !zlen_cons, zlen_map. auto. Qed.

Lemma pushdown_step : forall al h fo fn i b i' b' a tw,
  inv h (Some (fill fo (GB true i' b' a tw))) (Some (fill fn (GB true i b a tw))) -> branch_weight (Branch i b []) = Ok (zlen tw) ->
  (al (h_next h) = false /\ cow_pushdown_one al h (WBranch i b a) = Ok None) \/
  exists h1 h2 n, cow_pushdown_one al h (WBranch i b a) = Ok (Some (h1, WBranch i b n)) /\
    wr h1 (mkc false (rootw fn (WBranch i b a))) (fptr fn) (mkc false (WBranch i b n)) = Ok (h2, mkc false (rootw fn (WBranch i b n))) /\
    inv h2 (Some (fill fo (GB false i' b' a (map (setf true) tw)))) (Some (fill fn (GB false i b n (map (setf true) tw)))).
Proof.
  intros al h fo fn i b i' b' a tw I W. unfold cow_pushdown_one. rewrite W. cbn [rbind]. unfold h_alloc. destruct (al (h_next h)) eqn:EA; [right|left; auto].
  pose proof (inv_fresh _ _ _ I) as FR. pose proof (fun x => inv_live h _ _ x I) as LV. destruct I. set (n := h_next h) in *.
  cbn [oexcl oshr ogok oholds] in *. unfold oshra in *. cbn [oshr] in *.
  apply gok_fill in i_go0. destruct i_go0 as [ko kt]. apply gok_fill in i_gn0. destruct i_gn0 as [kn _]. apply holds_fill in i_ho0. destruct i_ho0 as [fho ht]. apply holds_fill in i_hn0. destruct i_hn0 as [fhn _].
  apply gok_B in kt. apply holds_B in ht. destruct ht as (Ha & NE & Hc). destruct (setf_facts tw kt) as (G1 & G2 & G3).
  assert (PT : Permutation (excl (fill fo (GB true i' b' a tw)) ++ excl (fill fn (GB true i b a tw)) ++ flat_map iaddr (shr (fill fn (GB true i b a tw))))
     ((fexcl fo ++ fexcl fn ++ fshra fn) ++ a :: flat_map alla tw)).
  { rewrite !excl_fill. cbn [excl]. rewrite !app_nil_r. change (flat_map iaddr (shr (fill fn (GB true i b a tw)))) with (shra (fill fn (GB true i b a tw))). rewrite shra_fill. unfold shra. cbn [shr flat_map iaddr]. rewrite app_nil_r. rewrite <- !app_assoc. reflexivity. }
  assert (PF : Permutation (fshra fo) (fshra fn)).
  { apply fm_perm_l. rewrite !shr_fill in i_perm0. cbn [shr] in i_perm0. apply Permutation_app_inv_r in i_perm0. auto. }
  assert (FR' : ~ In n ((fexcl fo ++ fexcl fn ++ fshra fn) ++ a :: flat_map alla tw)) by (intros C; apply FR; eapply Permutation_in; [symmetry; exact PT|exact C]).
  pose proof (nd_perm _ _ PT i_nd0) as ND. pose proof ND as ND'. apply nd_app in ND'. destruct ND' as (ND1 & ND2 & ND3). apply NoDup_cons_iff in ND2. destruct ND2 as [ND2 ND4].
  (* children *)
  set (h0 := h_set (mkh (n + 1) (h_get h)) n (Some (OArr []))). assert (NA : a <> n) by (intros ->; apply FR'; apply in_app_iff; right; left; auto).
  assert (E0 : forall x, x <> n -> h_get h0 x = h_get h x) by (intros x Hx; cbn [h0 h_set h_get]; replace (x =? n) with false by lia; auto).
  assert (NT : ~ In n (flat_map alla tw)) by (intros C; apply FR'; apply in_app_iff; right; right; auto).
  destruct (mark_children_spec tw [] h0 true a) as (h1 & M1 & M2 & M3 & M4).
  { rewrite E0 by auto. exact Ha. } { auto. } { auto. } { rewrite Forall_forall in *. intros x Hx. eapply holds_ext; [|apply Hc; auto]. intros y Hy. apply E0. intros ->. apply NT. apply in_flat_map. eauto. }
  rewrite zlen_nil in M1. replace (Z.to_nat (zlen tw)) with (length tw) by (unfold zlen; lia). rewrite M1. cbn [rbind clear_cow].
  assert (TN : forall x, In x (map topa tw) -> In x (flat_map alla tw)) by (intros x Hx; apply in_map_iff in Hx; destruct Hx as (y & <- & Hy); apply in_flat_map; exists y; split; [auto|apply topa_alla]).
  assert (A1 : h_get h1 a = Some (OArr (cells true (map word_of tw)))) by (rewrite M4 by (intros C; apply ND2; auto); rewrite E0 by auto; auto).
  destruct tw as [|c0 tw0] eqn:ETW; [congruence|]. rewrite <- ETW in *. unfold set_mark, h_arr. rewrite A1. assert (exists w0 ws0, map word_of tw = w0 :: ws0) as (w0 & ws0 & EW) by (rewrite ETW; cbn; eauto). rewrite EW. cbn [cells rbind c_w].
  change (mkc false w0 :: map (mkc false) ws0) with (cells false (w0 :: ws0)). rewrite <- EW. cbn [h_set h_get]. rewrite Z.eqb_refl. cbn [rbind]. rewrite zlen_cells, zlen_map. replace (zlen tw <? zlen tw) with false by lia.
  set (h2 := h_set (h_set h1 a (Some (OArr (cells false (map word_of tw))))) n (Some (OArr (zfirstn (zlen tw) (cells false (map word_of tw)))))).
  assert (E2 : forall x, h_get h2 x = if (x =? n) || (x =? a) then Some (OArr (cells false (map word_of tw))) else h_get h1 x).
  { intros x. cbn [h2 h_set h_get]. destruct (x =? n) eqn:X1; [cbn [orb]; f_equal; f_equal; rewrite <- (zlen_map word_of tw), <- (zlen_cells false); apply firstn_len|]. cbn [orb]. destruct (x =? a); auto. }
  assert (E3 : forall x, In x (fexcl fo ++ fexcl fn ++ fshra fn) -> h_get h2 x = h_get h x).
  { intros x Hx. assert (x <> n) by (intros ->; apply FR'; apply in_app_iff; auto). assert (x <> a) by (intros ->; apply (ND3 a); cbn; auto). rewrite E2. replace ((x =? n) || (x =? a)) with false by lia.
    rewrite M4; [apply E0; auto|]. intros C. apply TN in C. apply (ND3 x); cbn; auto. }
  assert (FN2 : fhold h2 fn (WBranch i b a)) by (eapply fhold_ext; [|exact fhn]; intros x Hx; apply E3; rewrite !in_app_iff in *; tauto).
  destruct (wr_focus h2 fn (WBranch i b a) (WBranch i b n) FN2) as (h3 & W3 & N3 & E4).
  exists h2, h3, n. split; [reflexivity|]. split; [exact W3|].
  assert (E5 : forall x, In x (fexcl fo ++ n :: a :: flat_map alla tw) -> h_get h3 x = h_get h2 x).
  { intros x Hx. rewrite E4. destruct fn as [|f fn]; [auto|]. cbn [wr_get]. destruct (x =? f_a f) eqn:EX; [|auto]. exfalso. apply Z.eqb_eq in EX. subst x. assert (In (f_a f) (fexcl (f :: fn))) as IF by (cbn; auto).
    rewrite !in_app_iff in Hx. cbn [In] in Hx. destruct Hx as [Hx|[Hx|Hx]].
    - apply nd_app in ND1. destruct ND1 as (_ & _ & ND1). apply (ND1 (f_a f)); auto. apply in_app_iff. auto.
    - apply FR'. rewrite Hx. rewrite !in_app_iff. auto.
    - apply (ND3 (f_a f)); [rewrite !in_app_iff; auto|]. cbn. tauto. }
  assert (E6 : forall x, In x (fshra fn) -> h_get h3 x = h_get h x).
  { intros x Hx. rewrite E4. assert (X : wr_get h2 fn (WBranch i b n) x = h_get h2 x). { destruct fn as [|f fn]; [auto|]. cbn [wr_get]. destruct (x =? f_a f) eqn:EX; [|auto]. exfalso. apply Z.eqb_eq in EX. subst x.
      apply nd_app in ND1. destruct ND1 as (_ & ND1 & _). apply nd_app in ND1. destruct ND1 as (_ & _ & ND1). apply (ND1 (f_a f)); cbn; auto. } rewrite X. apply E3. rewrite !in_app_iff. auto. }
  assert (HCH : Forall (holds h3) (map (setf true) tw)).
  { rewrite Forall_forall in *. intros x Hx. apply in_map_iff in Hx. destruct Hx as (c & <- & Hcx). eapply holds_ext; [|apply M3; exact Hcx]. intros y Hy. rewrite alla_setf in Hy.
    assert (In y (flat_map alla tw)) as IY by (apply in_flat_map; eauto). rewrite E5 by (rewrite in_app_iff; cbn; auto). rewrite E2. replace ((y =? n) || (y =? a)) with false; [auto|]. symmetry. apply orb_false_iff. split; apply Z.eqb_neq; intros ->; auto. }
  assert (PT2 : Permutation (excl (fill fo (GB false i' b' a (map (setf true) tw))) ++ excl (fill fn (GB false i b n (map (setf true) tw))) ++ flat_map iaddr (shr (fill fn (GB false i b n (map (setf true) tw)))))
     (n :: (fexcl fo ++ fexcl fn ++ fshra fn) ++ a :: flat_map alla tw)).
  { rewrite !excl_fill. cbn [excl]. rewrite G2. change (flat_map iaddr (shr (fill fn (GB false i b n (map (setf true) tw))))) with (shra (fill fn (GB false i b n (map (setf true) tw)))). rewrite shra_fill. unfold shra. cbn [shr]. rewrite G3.
    rewrite <- !app_assoc. cbn [app]. rewrite <- (Permutation_middle (fexcl fo)). rewrite <- (Permutation_middle (fexcl fn)). rewrite <- (Permutation_middle (fexcl fo)).
    rewrite perm_swap. constructor. rewrite !app_assoc. rewrite <- Permutation_middle. reflexivity. }
  constructor; cbn [ogok oholds oexcl oshr]; unfold oshra; cbn [oshr].
  - apply gok_fill. split; [auto|]. apply gok_B. auto.
  - apply gok_fill. split; [auto|]. apply gok_B. auto.
  - apply holds_fill. split.
    + cbn [word_of]. eapply fhold_ext; [|exact fho]. intros x Hx. apply in_app_iff in Hx. destruct Hx as [Hx|Hx].
      * rewrite E5 by (apply in_app_iff; auto). apply E3. apply in_app_iff. auto.
      * apply E6. eapply Permutation_in; [exact PF|exact Hx].
    + apply holds_B. rewrite map_word_setf. rewrite E5 by (rewrite in_app_iff; cbn; auto). rewrite E2. rewrite Z.eqb_refl, orb_true_r. split; [auto|]. split; [rewrite ETW; discriminate|auto].
  - apply holds_fill. split.
    + cbn [word_of]. eapply fhold_write; [exact FN2| |]; [|intros; apply E4].
      apply nd_app in ND1. apply ND1.
    + apply holds_B. rewrite map_word_setf. rewrite E5 by (rewrite in_app_iff; cbn; auto). rewrite E2. rewrite Z.eqb_refl. cbn [orb]. split; [auto|]. split; [rewrite ETW; discriminate|auto].
  - rewrite !shr_fill in *. cbn [shr] in *. apply Permutation_app_inv_r in i_perm0. apply Permutation_app; auto.
  - eapply nd_perm; [symmetry; exact PT2|]. constructor; auto.
  - intros x Hx. eapply Permutation_in; [symmetry; exact PT2|]. destruct (Z.eq_dec x n) as [->|XN]; [left; auto|right]. eapply Permutation_in; [exact PT|]. apply i_dom0. intros C.
    assert (~ In x ((fexcl fo ++ fexcl fn ++ fshra fn) ++ a :: flat_map alla tw)) as NI.
    { intros X. assert (In x (excl (fill fo (GB true i' b' a tw)) ++ excl (fill fn (GB true i b a tw)) ++ flat_map iaddr (shr (fill fn (GB true i b a tw))))) as Y by (eapply Permutation_in; [symmetry; exact PT|auto]). apply LV in Y; auto. }
    rewrite !in_app_iff in NI. cbn [In] in NI. rewrite E4 in Hx. assert (X : wr_get h2 fn (WBranch i b n) x = h_get h2 x). { destruct fn as [|f fn]; [auto|]. cbn [wr_get]. destruct (x =? f_a f) eqn:EX; [|auto]. exfalso. apply NI. cbn. left. right. left. left. lia. }
    rewrite X, E2 in Hx. replace ((x =? n) || (x =? a)) with false in Hx by (symmetry; apply orb_false_iff; split; apply Z.eqb_neq; [auto|intros ->; tauto]). rewrite M4 in Hx by (intros Y; apply TN in Y; tauto). rewrite E0 in Hx; auto.
  - intros x Hx. assert (h_next h3 = n + 1) as -> by (rewrite N3; cbn [h2 h_set h_next]; rewrite M2; reflexivity).
    destruct (in_dec Z.eq_dec x (n :: (fexcl fo ++ fexcl fn ++ fshra fn) ++ a :: flat_map alla tw)) as [IN|IN].
    + destruct IN as [<-|IN]; [lia|]. assert (h_get h x <> None) as Y. { apply LV. eapply Permutation_in; [symmetry; exact PT|auto]. } apply i_rng0 in Y. lia.
    + exfalso. apply IN. eapply Permutation_in; [exact PT2|]. clear IN. 
      eapply Permutation_in; [symmetry; exact PT2|]. destruct (Z.eq_dec x n) as [->|XN]; [left; auto|right]. eapply Permutation_in; [exact PT|]. apply i_dom0. intros C.
      assert (~ In x ((fexcl fo ++ fexcl fn ++ fshra fn) ++ a :: flat_map alla tw)) as NI.
      { intros X. assert (In x (excl (fill fo (GB true i' b' a tw)) ++ excl (fill fn (GB true i b a tw)) ++ flat_map iaddr (shr (fill fn (GB true i b a tw))))) as Y by (eapply Permutation_in; [symmetry; exact PT|auto]). apply LV in Y; auto. }
      rewrite !in_app_iff in NI. cbn [In] in NI. rewrite E4 in Hx. assert (X : wr_get h2 fn (WBranch i b n) x = h_get h2 x). { destruct fn as [|f fn]; [auto|]. cbn [wr_get]. destruct (x =? f_a f) eqn:EX; [|auto]. exfalso. apply NI. cbn. left. right. left. left. lia. }
      rewrite X, E2 in Hx. replace ((x =? n) || (x =? a)) with false in Hx by (symmetry; apply orb_false_iff; split; apply Z.eqb_neq; [auto|intros ->; tauto]). rewrite M4 in Hx by (intros Y; apply TN in Y; tauto). rewrite E0 in Hx; auto.
  - assert (h_next h3 = n + 1) as -> by (rewrite N3; cbn [h2 h_set h_next]; rewrite M2; reflexivity). lia.
Qed.
