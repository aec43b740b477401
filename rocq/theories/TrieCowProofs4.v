(** Proofs about the copy-on-write trie: changes at one place of the new tree, insertion. *)
From Verif Require Import Base TrieModel TrieSpec TrieProofs TrieProofs2 TrieProofs3 TrieProofs4 TrieCowModel TrieCowProofs TrieCowProofs2 TrieCowProofs3.
From Coq Require Import Permutation.

Lemma alla_in : forall g a, In a (alla g) <-> In a (excl g) \/ In a (shra g).
Proof.
  intros g a. rewrite <- in_app_iff. split; intros H; (eapply Permutation_in; [|exact H]); [|symmetry]; apply alla_split.
Qed.
Record focus (h : heap) (fs : list frame) (g : gnode) : Prop := {
  f_hold : fhold h fs (word_of g); f_g : holds h g; f_ok : fok fs; f_gok : gok g; f_nd : NoDup (alla g);
  f_fnd : NoDup (fexcl fs ++ fshra fs);
  f_dis : forall a, In a (alla g) -> ~ In a (fexcl fs ++ fshra fs);
  f_rng : forall a, In a (alla g) \/ In a (fexcl fs ++ fshra fs) -> 0 < a < h_next h }.
Lemma inv_focus_facts : forall h go fs g, inv h go (Some (fill fs g)) -> focus h fs g.
Proof.
  intros h go fs g I. pose proof (fun a => inv_live h go _ a I) as LV. destruct I as [_ K _ H _ N _ R _]. cbn [ogok oholds oexcl] in *. unfold oshra in *. cbn [oshr] in *.
  apply gok_fill in K. apply holds_fill in H. apply nd_app in N. destruct N as (_ & N & _).
  assert (P : Permutation (excl (fill fs g) ++ flat_map iaddr (shr (fill fs g))) (alla g ++ (fexcl fs ++ fshra fs))).
  { rewrite alla_split, excl_fill. change (flat_map iaddr (shr (fill fs g))) with (shra (fill fs g)). rewrite shra_fill. rewrite <- !app_assoc.
    rewrite (perm_mid (fexcl fs) (excl g)). apply Permutation_app_head. rewrite (perm_mid (shra g)). apply Permutation_app_head. apply Permutation_app_comm. }
  pose proof (nd_perm _ _ P N) as N'. apply nd_app in N'. destruct N' as (N1 & N2 & N3).
  constructor; try tauto. intros a A. apply R. apply LV. apply in_app_iff. right. eapply Permutation_in; [symmetry; exact P|]. apply in_app_iff. auto.
Qed.
Lemma fhold_local : forall h h' fs g, focus h fs g -> (forall a, ~ In a (alla g) -> a < h_next h -> h_get h' a = h_get h a) -> fhold h' fs (word_of g).
Proof.
  intros h h' fs g F E. eapply fhold_ext; [|apply (f_hold _ _ _ F)]. intros a A. apply E; [intros B; eapply f_dis; eauto|]. assert (0 < a < h_next h) by (apply (f_rng _ _ _ F); auto). lia.
Qed.
Lemma inv_focus : forall h h3 go fs g g', inv h go (Some (fill fs g)) ->
  (forall a, ~ In a (excl g) -> a < h_next h -> h_get h3 a = wr_get h fs (word_of g') a) ->
  gok g' -> holds h3 g' -> Permutation (shr g') (shr g) -> NoDup (excl g') ->
  (forall a, In a (excl g') -> In a (excl g) \/ h_next h <= a) ->
  (forall a, h_get h3 a <> None -> In a (excl g) \/ h_next h <= a -> In a (excl g') /\ a < h_next h3) ->
  h_next h <= h_next h3 -> inv h3 go (Some (fill fs g')).
Proof.
  intros h h3 go fs g g' I U K H P N IN LV NX. pose proof (inv_focus_facts _ _ _ _ I) as F. destruct F.
  assert (EX : forall a, In a (excl g) -> In a (alla g)) by (intros; apply alla_in; auto).
  assert (IE : forall x a, In a (excl (fill fs x)) <-> In a (fexcl fs) \/ In a (excl x)).
  { intros x a. rewrite <- in_app_iff. split; intros A; (eapply Permutation_in; [|exact A]); [|symmetry]; apply excl_fill. }
  assert (FR : forall a, In a (fexcl fs ++ fshra fs) -> ~ In a (excl g) /\ a < h_next h).
  { intros a A. split; [intros B; apply (f_dis0 a); auto|]. assert (0 < a < h_next h) by auto. lia. }
  eapply inv_update; [exact I| | | | | | | |auto]; cbn [oexcl ogok oholds oshr].
  - intros a A L. rewrite IE in A. rewrite U by tauto. apply wr_get_same. tauto.
  - apply gok_fill. auto.
  - apply holds_fill. split; [|auto]. eapply fhold_write; [exact f_hold0|auto|]. intros x A. destruct (FR x A). apply U; auto.
  - rewrite !shr_fill. rewrite P. reflexivity.
  - eapply nd_perm; [symmetry; apply excl_fill|]. apply nd_app. split; [apply nd_app in f_fnd0; tauto|]. split; [auto|]. intros x A B. destruct (FR x) as [F1 F2]; [apply in_app_iff; auto|]. destruct (IN x B); [tauto|lia].
  - intros a A. rewrite IE in *. destruct A as [A|A]; [auto|]. destruct (IN a A); auto.
  - intros a L A. rewrite IE in *. destruct A as [[A|A]|A].
    + split; [auto|]. destruct (FR a); [apply in_app_iff; auto|]. lia.
    + destruct (LV a L); auto.
    + destruct (LV a L); auto.
Qed.
Lemma inv_same : forall h h' go gn, inv h go gn -> (forall a, h_get h' a = h_get h a) -> h_next h <= h_next h' -> inv h' go gn.
Proof.
  intros h h' go gn I E NX. pose proof (fun a => inv_live h go gn a I) as LV. pose proof (i_rng _ _ _ I) as R.
  eapply inv_update; [exact I| | | | | | | |auto]; auto.
  - apply I.
  - eapply oholds_ext; [intros; apply E|apply I].
  - pose proof (i_nd _ _ _ I) as N. apply nd_app in N. destruct N as (_ & N & _). apply nd_app in N. tauto.
  - intros a L A. rewrite E in L. apply R in L. split; [|lia]. destruct A; [auto|lia].
Qed.

(** writing a value *)
Lemma h_write_spec : forall h t go fs ka k v v', inv h go (Some (fill fs (GL false ka k v))) -> trep t (Some (fill fs (GL false ka k v))) ->
  exists h' t', h_write h t (fptr fs) v' = Ok (h', t') /\ inv h' go (Some (fill fs (GL false ka k v'))) /\ trep t' (Some (fill fs (GL false ka k v'))) /\ ht_weight t' = ht_weight t.
Proof.
  intros h t go fs ka k v v' I [T1 T2]. pose proof (inv_focus_facts _ _ _ _ I) as F. unfold h_write. rewrite T1, word_fill. rewrite rd_focus by apply F. cbn [rbind c_w word_of c_cow].
  destruct (wr_focus h fs (WLeaf ka v) (WLeaf ka v') (f_hold _ _ _ F)) as (h2 & -> & N2 & E2). cbn [rbind]. eexists h2, _. split; [reflexivity|]. split; [|split; [split; [cbn [ht_root]; rewrite word_fill; auto|auto]|auto]].
  assert (R : 0 < ka < h_next h) by (apply (f_rng _ _ _ F); left; cbn; auto). assert (NF : ~ In ka (fexcl fs)) by (intros C; apply (f_dis _ _ _ F ka); [cbn; auto|apply in_app_iff; auto]).
  eapply inv_focus; [exact I| | | | | | | |lia].
  - intros a _ _. apply E2.
  - exact Logic.I.
  - cbn [holds]. rewrite E2, wr_get_same by auto. apply (f_g _ _ _ F).
  - reflexivity.
  - cbn. constructor; [intros []|constructor].
  - cbn. auto.
  - intros a L [[<-|[]]|A]; [cbn; split; [auto|lia]|]. exfalso. rewrite E2 in L. assert (X : ~ In a (fexcl fs)). { intros C. assert (0 < a < h_next h) by (apply (f_rng _ _ _ F); right; apply in_app_iff; auto). lia. }
    rewrite wr_get_same in L by auto. apply (i_rng _ _ _ I) in L. lia.
Qed.

(** going down a path, with and without copying *)
Lemma down_spec : forall cw al h go g js ps, inv h go (Some g) -> (cw = false -> go = None) -> wf (erase g) -> gptrs g js = Some ps ->
  exists h' ps' ok go' gn', (if cw : bool then cow_pushdown al h (mkc false (word_of g)) (PRoot :: ps) None else Ok (h, mkc false (word_of g), PRoot :: ps, true)) = Ok (h', mkc false (word_of gn'), ps', ok) /\
    inv h' go' (Some gn') /\ option_map ew go' = option_map ew go /\ erase gn' = erase g /\ (cw = false -> go' = None) /\
    (ok = false -> exists n, al n = false) /\
    (ok = true -> exists fs g', gn' = fill fs g' /\ gflag g' = false /\ fpath fs = js /\ ps' = chainp fs []).
Proof.
  intros [] al h go g js ps I C W P.
  - destruct (pushdown_spec js al h go [] g ps PRoot None I W P eq_refl) as (h' & ps' & ok & go' & gn' & E & I' & E1 & E2 & E3 & E4). exists h', ps', ok, go', gn'. split; [exact E|]. split; [auto|]. split; [auto|]. split; [auto|]. split; [discriminate|]. split; [auto|].
    intros X. destruct (E4 X) as (ext & g' & Q1 & Q2 & Q3 & Q4). exists ext, g'. rewrite app_nil_r in Q1. auto.
  - rewrite C in * by auto. assert (S : shr g = []). { pose proof (i_perm _ _ _ I) as Q. cbn [oshr] in Q. apply Permutation_nil in Q. auto. }
    destruct (place_spec js g [] ps S P) as (ext & g' & Q1 & Q2 & Q3 & Q4). exists h, (PRoot :: ps), true, None, g. split; [auto|]. split; [auto|]. split; [auto|]. split; [auto|]. split; [auto|]. split; [discriminate|].
    intros _. exists ext, g'. rewrite app_nil_r in Q1. auto.
Qed.
Lemma chainp_last : forall fs, last (chainp fs []) PRoot = fptr fs.
Proof. intros [|f fs]; [auto|]. cbn [chainp]. rewrite last_last. rewrite app_nil_r. auto. Qed.
Lemma top2_chainp : forall fs, top2 (chainp fs []) = Ok (fptr fs, match fs with [] => None | _ :: fs => Some (fptr fs) end).
Proof.
  intros [|f [|f2 fs]]; [auto| |]; cbn [chainp]; unfold top2; rewrite ?rev_app_distr; cbn [rev app]; rewrite ?app_nil_r; auto.
Qed.
Lemma ptrs_get : forall h g st, holds h g -> chain (erase g) st -> exists ps, gptrs g (spath st) = Some ps /\ ptrs h (mkc false (word_of g)) (ns_path st) = Ok (PRoot :: ps).
Proof.
  intros h g st H C. destruct (chain_cons _ _ C) as (ci & t & up & ->). pose proof (chain_path _ _ _ _ C) as P. destruct (gptrs_some _ _ _ P) as (ps & E). exists ps. split; [auto|].
  unfold ptrs. cbn [c_w]. rewrite ns_path_spath. rewrite (ptrs_spec _ _ _ _ H E). auto.
Qed.
Lemma fstack_top : forall fs g, exists ci up, fstack fs g = (ci, erase g) :: up.
Proof. intros [|f fs] g; cbn; eauto. Qed.
Lemma spath_fstack : forall fs g, spath (fstack fs g) = fpath fs.
Proof.
  induction fs as [|f fs IH]; intros g; [auto|]. cbn [fstack]. destruct (fstack_top fs (GB false (f_i f) (f_b f) (f_a f) (f_l f ++ g :: f_r f))) as (ci & up & E). rewrite E.
  change (spath ((zlen (f_l f), erase g) :: (ci, erase (GB false (f_i f) (f_b f) (f_a f) (f_l f ++ g :: f_r f))) :: up)) with (spath ((ci, erase (GB false (f_i f) (f_b f) (f_a f) (f_l f ++ g :: f_r f))) :: up) ++ [zlen (f_l f)]).
  rewrite <- E, IH, fpath_cons. auto.
Qed.
Lemma erase_leaf : forall g k v, erase g = Leaf k v -> gflag g = false -> exists ka, g = GL false ka k v.
Proof. intros [s ka k' v'|] k v E F; [|discriminate]. cbn in *. inversion E; subst. exists ka. auto. Qed.
Lemma fm_none : forall {A B} (f : A -> list B) l, (forall x, In x l -> f x = []) -> flat_map f l = [].
Proof. induction l as [|x l IH]; intros H; [auto|]. cbn. rewrite H by (cbn; auto). apply IH. intros; apply H; cbn; auto. Qed.
Lemma map_app_inv : forall {A B} (f : A -> B) l l1 l2, map f l = l1 ++ l2 -> exists m1 m2, l = m1 ++ m2 /\ map f m1 = l1 /\ map f m2 = l2.
Proof. intros A B f l l1. revert l. induction l1 as [|x l1 IH]; intros l l2 E; [exists [], l; auto|]. destruct l as [|y l]; [discriminate|]. cbn in E. injection E as E1 E2. destruct (IH _ _ E2) as (m1 & m2 & -> & <- & <-). exists (y :: m1), m2. subst x. auto. Qed.

(** a leaf that was allocated in vain *)
Lemma leaf_undone : forall h n o, n = h_next h -> h_get h n = None -> forall a, h_get (h_set (h_set (mkh (n + 1) (h_get h)) n (Some o)) n None) a = h_get h a.
Proof. intros h n o E G a. cbn [h_set h_get]. destruct (a =? n) eqn:X; [|auto]. replace a with n by lia. auto. Qed.

(** *** a new twig: the array is moved to nt *)
Lemma add_inv : forall h h3 go fs i b b' aa gl gr key n, inv h go (Some (fill fs (GB false i b aa (gl ++ gr)))) -> n = h_next h -> h_next h3 = n + 2 ->
  (forall a, a <> aa -> a < n -> h_get h3 a = wr_get h fs (WBranch i b' (n + 1)) a) -> h_get h3 aa = None -> (forall a, n + 2 <= a -> h_get h3 a = None) ->
  h_get h3 n = Some (OKey false key) -> h_get h3 (n + 1) = Some (OArr (cells false (map word_of (gl ++ GL false n key 0 :: gr)))) ->
  inv h3 go (Some (fill fs (GB false i b' (n + 1) (gl ++ GL false n key 0 :: gr)))).
Proof.
  intros h h3 go fs i b b' aa gl gr key n I EN NX U HA HB HN HM. pose proof (inv_focus_facts _ _ _ _ I) as F.
  assert (KC : Forall (fun c => holds h3 c) (gl ++ gr)).
  { pose proof (f_g _ _ _ F) as HG. apply holds_B in HG. destruct HG as (_ & _ & HG). rewrite Forall_forall in *. intros c Hc. eapply holds_ext; [|apply HG; auto].
    intros a Ha. assert (AL : In a (flat_map alla (gl ++ gr))) by (apply in_flat_map; eauto). assert (AG : In a (alla (GB false i b aa (gl ++ gr)))) by (cbn [alla]; right; auto).
    pose proof (f_nd _ _ _ F) as ND. cbn [alla] in ND. apply NoDup_cons_iff in ND. destruct ND as [ND _]. assert (0 < a < h_next h) by (apply (f_rng _ _ _ F); auto). rewrite U; [|intros ->; auto|lia]. apply wr_get_same.
    intros C. eapply (f_dis _ _ _ F); [exact AG|apply in_app_iff; auto]. }
  assert (EX : forall c, In c (gl ++ gr) -> forall a, In a (excl c) -> 0 < a < n).
  { intros c Hc a Ha. rewrite EN. apply (f_rng _ _ _ F). left. cbn [alla]. right. apply in_flat_map. exists c. split; [auto|apply alla_in; auto]. }
  eapply inv_focus; [exact I| | | | | | | |lia].
  - intros a A L. apply U; [|lia]. intros ->. apply A. cbn. auto.
  - pose proof (f_gok _ _ _ F) as G. apply gok_B in G. apply gok_B. rewrite Forall_app in *. split; [tauto|]. constructor; [exact Logic.I|tauto].
  - apply holds_B. split; [auto|]. split; [destruct gl; discriminate|]. rewrite Forall_app in *. split; [tauto|]. constructor; [exact HN|tauto].
  - cbn [shr]. rewrite !fm_app. cbn [flat_map shr app]. reflexivity.
  - assert (ND : NoDup (flat_map excl (gl ++ gr))).
    { pose proof (f_nd _ _ _ F) as ND. eapply nd_perm in ND; [|apply alla_split]. apply nd_app in ND. destruct ND as [ND _]. cbn [excl] in ND. apply NoDup_cons_iff in ND. tauto. }
    cbn [excl]. assert (P : Permutation (flat_map excl (gl ++ GL false n key 0 :: gr)) (n :: flat_map excl (gl ++ gr))) by (rewrite !fm_app; cbn [flat_map excl app]; symmetry; apply Permutation_middle).
    constructor; [intros C; eapply Permutation_in in C; [|exact P]; destruct C as [C|C]; [lia|]|eapply nd_perm; [symmetry; exact P|constructor; [intros C|exact ND]]].
    + apply in_flat_map in C. destruct C as (c & C1 & C2). apply (EX c) in C2; auto. lia.
    + apply in_flat_map in C. destruct C as (c & C1 & C2). apply (EX c) in C2; auto. lia.
  - cbn [excl]. intros a [<-|A]; [lia|]. rewrite fm_app in *. cbn [flat_map excl app] in A. rewrite in_app_iff in A. cbn [In] in *. rewrite in_app_iff. destruct A as [A|[A|A]]; [auto|lia|auto].
  - cbn [excl]. intros a L [[<-|A]|A]; [congruence| |].
    + split; [right; rewrite fm_app in *; cbn [flat_map excl app]; rewrite in_app_iff in *; cbn [In]; tauto|]. apply in_flat_map in A. destruct A as (c & C1 & C2). apply (EX c) in C2; auto. lia.
    + assert (a < n + 2) by (destruct (Z_lt_le_dec a (n + 2)); [auto|]; rewrite HB in L by auto; congruence). split; [|lia]. destruct (Z.eq_dec a (n + 1)) as [->|]; [left; auto|]. right. rewrite fm_app. cbn [flat_map excl app]. apply in_app_iff. right. cbn. left. lia.
Qed.
(** *** a new branch over the node *)
Lemma two_inv : forall h h3 go fs i b' g tw key n, inv h go (Some (fill fs g)) -> n = h_next h -> h_next h3 = n + 2 ->
  (forall a, a < n -> h_get h3 a = wr_get h fs (WBranch i b' (n + 1)) a) -> (forall a, n + 2 <= a -> h_get h3 a = None) ->
  h_get h3 n = Some (OKey false key) -> h_get h3 (n + 1) = Some (OArr (cells false (map word_of tw))) -> (tw = [g; GL false n key 0] \/ tw = [GL false n key 0; g]) ->
  inv h3 go (Some (fill fs (GB false i b' (n + 1) tw))).
Proof.
  intros h h3 go fs i b' g tw key n I EN NX U HB HN HM TW. pose proof (inv_focus_facts _ _ _ _ I) as F.
  assert (HG : holds h3 g).
  { eapply holds_ext; [|apply (f_g _ _ _ F)]. intros a A. assert (0 < a < h_next h) by (apply (f_rng _ _ _ F); auto). rewrite U by lia. apply wr_get_same. intros C. eapply (f_dis _ _ _ F); [exact A|apply in_app_iff; auto]. }
  assert (EX : forall a, In a (excl g) -> 0 < a < n) by (intros a A; rewrite EN; apply (f_rng _ _ _ F); left; apply alla_in; auto).
  assert (PE : Permutation (excl (GB false i b' (n + 1) tw)) (n + 1 :: n :: excl g)).
  { cbn [excl]. constructor. destruct TW as [-> | ->]; cbn [flat_map excl]; rewrite app_nil_r; cbn [app]; [symmetry; apply Permutation_cons_append|auto]. }
  eapply inv_focus; [exact I| | | | | | | |lia].
  - intros a A L. apply U. lia.
  - apply gok_B. pose proof (f_gok _ _ _ F) as G. destruct TW as [-> | ->]; repeat (constructor; [first [exact G|exact Logic.I]|]); constructor.
  - apply holds_B. split; [auto|]. split; [destruct TW as [-> | ->]; discriminate|]. destruct TW as [-> | ->]; repeat (constructor; [first [exact HG|exact HN]|]); constructor.
  - cbn [shr]. destruct TW as [-> | ->]; cbn [flat_map shr app]; rewrite ?app_nil_r; reflexivity.
  - eapply nd_perm; [symmetry; exact PE|]. constructor; [intros [C|C]; [lia|apply EX in C; lia]|]. constructor; [intros C; apply EX in C; lia|].
    pose proof (f_nd _ _ _ F) as ND. eapply nd_perm in ND; [|apply alla_split]. apply nd_app in ND. tauto.
  - intros a A. eapply Permutation_in in A; [|exact PE]. destruct A as [<-|[<-|A]]; [lia|lia|auto].
  - intros a L A. assert (In a (n + 1 :: n :: excl g) /\ a < h_next h3) as [X Y]; [|split; [eapply Permutation_in; [symmetry; exact PE|exact X]|exact Y]].
    destruct A as [A|A]; [split; [cbn; auto|]; apply EX in A; lia|]. assert (a < n + 2) by (destruct (Z_lt_le_dec a (n + 2)); [auto|]; rewrite HB in L by auto; congruence). split; [cbn; lia|lia].
Qed.
