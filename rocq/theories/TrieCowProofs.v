(** Proofs about the copy-on-write trie: ghost trees, ownership of objects, contexts. *)
From Verif Require Import Base TrieModel TrieSpec TrieProofs TrieProofs2 TrieProofs3 TrieProofs4 TrieCowModel.
From Coq Require Import Permutation.

(** A tree with the addresses of its objects; [s] is the flag of the key or the mark of the array. *)
Inductive gnode :=
| GL (s : bool) (ka : Z) (k : list Z) (v : Z)
| GB (s : bool) (i b aa : Z) (tw : list gnode).

Definition gnode_ind2 (P : gnode -> Prop) (HL : forall s ka k v, P (GL s ka k v))
    (HB : forall s i b aa tw, Forall P tw -> P (GB s i b aa tw)) : forall g, P g :=
  fix go (g : gnode) : P g :=
    match g with
    | GL s ka k v => HL s ka k v
    | GB s i b aa tw => HB s i b aa tw ((fix all l := match l return Forall P l with [] => Forall_nil _ | x :: l => Forall_cons _ (go x) (all l) end) tw)
    end.

Fixpoint erase (g : gnode) : node :=
  match g with GL _ _ k v => Leaf k v | GB _ i b _ tw => Branch i b (map erase tw) end.
Definition word_of (g : gnode) : word :=
  match g with GL _ ka _ v => WLeaf ka v | GB _ i b aa _ => WBranch i b aa end.
Definition gflag (g : gnode) : bool := match g with GL s _ _ _ => s | GB s _ _ _ _ => s end.
Definition setf (f : bool) (g : gnode) : gnode :=
  match g with GL _ ka k v => GL f ka k v | GB _ i b aa tw => GB f i b aa tw end.
Fixpoint clean (g : gnode) : Prop :=
  match g with GL s _ _ _ => s = false | GB s _ _ _ tw => s = false /\ fold_right (fun c P => clean c /\ P) True tw end.
(** at most one mark on any way down *)
Fixpoint gok (g : gnode) : Prop :=
  match g with
  | GL _ _ _ _ => True
  | GB s _ _ _ tw => fold_right (fun c P => (if s then clean c else gok c) /\ P) True tw
  end.
Lemma fold_and : forall {A} (Q : A -> Prop) l, fold_right (fun c P => Q c /\ P) True l <-> Forall Q l.
Proof. intros. induction l; cbn; [split; auto|]. rewrite IHl. split; [intros []; constructor; auto|inversion 1; auto]. Qed.
Lemma clean_B : forall s i b aa tw, clean (GB s i b aa tw) <-> s = false /\ Forall clean tw.
Proof. intros. cbn [clean]. rewrite (fold_and clean). tauto. Qed.
Lemma gok_B : forall s i b aa tw, gok (GB s i b aa tw) <-> Forall (fun c => if s then clean c else gok c) tw.
Proof. intros. cbn [gok]. rewrite (fold_and (fun c => if s then clean c else gok c)). tauto. Qed.
Lemma clean_gok : forall g, clean g -> gok g.
Proof.
  induction g as [s ka k v|s i b aa tw IH] using gnode_ind2; intros H; [exact I|]. apply clean_B in H. destruct H as [-> H]. apply gok_B.
  rewrite Forall_forall in *. intros x Hx. apply IH; auto.
Qed.

(** *** what the heap holds *)
Definition cells (s : bool) (ws : list word) : list cell :=
  match ws with [] => [] | w :: ws => mkc s w :: map (mkc false) ws end.
Fixpoint holds (h : heap) (g : gnode) : Prop :=
  match g with
  | GL s ka k v => h_get h ka = Some (OKey s k)
  | GB s i b aa tw => h_get h aa = Some (OArr (cells s (map word_of tw))) /\ tw <> [] /\ fold_right (fun c P => holds h c /\ P) True tw
  end.
Lemma holds_B : forall h s i b aa tw, holds h (GB s i b aa tw) <->
  h_get h aa = Some (OArr (cells s (map word_of tw))) /\ tw <> [] /\ Forall (holds h) tw.
Proof. intros. cbn [holds]. rewrite (fold_and (holds h)). tauto. Qed.

(** *** owned and shared objects *)
Fixpoint alla (g : gnode) : list Z :=
  match g with GL _ ka _ _ => [ka] | GB _ _ _ aa tw => aa :: flat_map alla tw end.
Fixpoint excl (g : gnode) : list Z :=
  match g with
  | GL s ka _ _ => if s then [] else [ka]
  | GB s _ _ aa tw => if s then [] else aa :: flat_map excl tw
  end.
Inductive item := SKey (ka : Z) (k : list Z) | SArr (aa : Z) (tw : list gnode).
Definition iaddr (it : item) : list Z := match it with SKey ka _ => [ka] | SArr aa tw => aa :: flat_map alla tw end.
Fixpoint shr (g : gnode) : list item :=
  match g with
  | GL s ka k _ => if s then [SKey ka k] else []
  | GB s _ _ aa tw => if s then [SArr aa tw] else flat_map shr tw
  end.
Definition shra (g : gnode) : list Z := flat_map iaddr (shr g).

Lemma fm_app : forall {A B} (f : A -> list B) l1 l2, flat_map f (l1 ++ l2) = flat_map f l1 ++ flat_map f l2.
Proof. intros. induction l1; cbn; [auto|]. rewrite IHl1, app_assoc. auto. Qed.
Lemma fm_fm : forall {A B C} (f : A -> list B) (g : B -> list C) l, flat_map g (flat_map f l) = flat_map (fun x => flat_map g (f x)) l.
Proof. intros. induction l; cbn; [auto|]. rewrite fm_app, IHl. auto. Qed.
Lemma fm_perm : forall {A B} (f g : A -> list B) l, Forall (fun x => Permutation (f x) (g x)) l -> Permutation (flat_map f l) (flat_map g l).
Proof. intros A B f g l H. induction H; cbn; auto. apply Permutation_app; auto. Qed.
Lemma fm_app_perm : forall {A B} (f g : A -> list B) l, Permutation (flat_map (fun x => f x ++ g x) l) (flat_map f l ++ flat_map g l).
Proof.
  intros. induction l as [|x l IH]; cbn; [auto|]. rewrite IH. rewrite <- !app_assoc. apply Permutation_app_head. rewrite !app_assoc. apply Permutation_app_tail. apply Permutation_app_comm.
Qed.
Lemma fm_perm_l : forall {A B} (f : A -> list B) l l', Permutation l l' -> Permutation (flat_map f l) (flat_map f l').
Proof. intros A B f l l' H. induction H; cbn; auto. - apply Permutation_app_head. auto. - rewrite !app_assoc. apply Permutation_app_tail. apply Permutation_app_comm. - etransitivity; eauto. Qed.
Lemma alla_split : forall g, Permutation (alla g) (excl g ++ shra g).
Proof.
  unfold shra. induction g as [s ka k v|s i b aa tw IH] using gnode_ind2.
  - cbn. destruct s; cbn; auto.
  - cbn [alla excl shr]. destruct s; [cbn [flat_map iaddr app]; rewrite app_nil_r; auto|].
    cbn [app]. constructor. rewrite fm_fm. rewrite <- fm_app_perm. apply fm_perm. exact IH.
Qed.
Lemma clean_excl : forall g, clean g -> excl g = alla g /\ shr g = [].
Proof.
  induction g as [s ka k v|s i b aa tw IH] using gnode_ind2; intros H.
  - cbn in *. subst. auto.
  - apply clean_B in H. destruct H as [-> H]. cbn [excl alla shr]. rewrite Forall_forall in *. split.
    + f_equal. clear aa. induction tw as [|c tw IHt]; [auto|]. cbn. rewrite (proj1 (IH c (or_introl eq_refl) (H c (or_introl eq_refl)))). f_equal. apply IHt; intros; [apply IH|apply H]; cbn; auto.
    + clear aa. induction tw as [|c tw IHt]; [auto|]. cbn. rewrite (proj2 (IH c (or_introl eq_refl) (H c (or_introl eq_refl)))). cbn. apply IHt; intros; [apply IH|apply H]; cbn; auto.
Qed.

Lemma holds_ext : forall h h' g, (forall a, In a (alla g) -> h_get h' a = h_get h a) -> holds h g -> holds h' g.
Proof.
  intros h h' g. induction g as [s ka k v|s i b aa tw IH] using gnode_ind2; intros E H.
  - cbn in *. rewrite E; auto.
  - apply holds_B in H. apply holds_B. destruct H as (A & N & F). rewrite E by (cbn; auto). split; [auto|]. split; [auto|]. rewrite Forall_forall in *.
    intros x Hx. apply IH; auto. intros a Ha. apply E. cbn. right. apply in_flat_map. eauto.
Qed.
Lemma holds_live : forall h g a, holds h g -> In a (alla g) -> h_get h a <> None.
Proof.
  intros h g a. induction g as [s ka k v|s i b aa tw IH] using gnode_ind2; intros H I.
  - cbn in *. destruct I as [<-|[]]. congruence.
  - apply holds_B in H. destruct H as (A & N & F). cbn in I. destruct I as [<-|I]; [congruence|]. apply in_flat_map in I. destruct I as (x & Hx & I).
    rewrite Forall_forall in *. eapply IH; eauto.
Qed.

(** *** contexts: the way to a node, through arrays of the exclusive region; innermost first *)
Record frame := mkf { f_i : Z; f_b : Z; f_a : Z; f_l : list gnode; f_r : list gnode }.
Fixpoint fill (fs : list frame) (g : gnode) : gnode :=
  match fs with [] => g | f :: fs => fill fs (GB false (f_i f) (f_b f) (f_a f) (f_l f ++ g :: f_r f)) end.
Fixpoint fexcl (fs : list frame) : list Z :=
  match fs with [] => [] | f :: fs => f_a f :: flat_map excl (f_l f) ++ flat_map excl (f_r f) ++ fexcl fs end.
Fixpoint fshr (fs : list frame) : list item :=
  match fs with [] => [] | f :: fs => flat_map shr (f_l f) ++ flat_map shr (f_r f) ++ fshr fs end.
Definition fshra fs := flat_map iaddr (fshr fs).
Fixpoint fhold (h : heap) (fs : list frame) (w : word) : Prop :=
  match fs with
  | [] => True
  | f :: fs => h_get h (f_a f) = Some (OArr (cells false (map word_of (f_l f) ++ w :: map word_of (f_r f)))) /\
      Forall (holds h) (f_l f) /\ Forall (holds h) (f_r f) /\ fhold h fs (WBranch (f_i f) (f_b f) (f_a f))
  end.
Fixpoint fok (fs : list frame) : Prop :=
  match fs with [] => True | f :: fs => Forall gok (f_l f) /\ Forall gok (f_r f) /\ fok fs end.

Lemma perm_mid : forall {A} (a b c : list A), Permutation (a ++ b ++ c) (b ++ a ++ c).
Proof. intros. rewrite !app_assoc. apply Permutation_app_tail. apply Permutation_app_comm. Qed.
Lemma excl_fill : forall fs g, Permutation (excl (fill fs g)) (fexcl fs ++ excl g).
Proof.
  induction fs as [|f fs IH]; intros g; [reflexivity|]. cbn [fill]. rewrite IH. cbn [excl fexcl]. rewrite fm_app. cbn [flat_map].
  rewrite Permutation_app_comm. cbn [app]. constructor. rewrite <- !app_assoc. apply Permutation_app_head. rewrite (Permutation_app_comm (excl g)). rewrite <- !app_assoc. reflexivity.
Qed.
Lemma shr_fill : forall fs g, Permutation (shr (fill fs g)) (fshr fs ++ shr g).
Proof.
  induction fs as [|f fs IH]; intros g; [reflexivity|]. cbn [fill]. rewrite IH. cbn [shr fshr]. rewrite fm_app. cbn [flat_map].
  rewrite Permutation_app_comm. rewrite <- !app_assoc. apply Permutation_app_head. rewrite (Permutation_app_comm (shr g)). rewrite <- !app_assoc. reflexivity.
Qed.
Lemma shra_fill : forall fs g, Permutation (shra (fill fs g)) (fshra fs ++ shra g).
Proof. intros. unfold shra, fshra. rewrite <- fm_app. apply fm_perm_l. apply shr_fill. Qed.
Lemma holds_fill : forall fs h g, holds h (fill fs g) <-> fhold h fs (word_of g) /\ holds h g.
Proof.
  induction fs as [|f fs IH]; intros h g; [cbn; tauto|]. cbn [fill fhold]. rewrite IH. rewrite holds_B. cbn [word_of]. rewrite map_app. cbn [map].
  rewrite Forall_app, Forall_cons_iff. split; [intros (A & B & C & D & E & F); auto 10|intros ((A & B & C & D) & E)]. split; [auto|]. split; [auto|]. split; [destruct (f_l f); discriminate|auto].
Qed.
Lemma gok_fill : forall fs g, gok (fill fs g) <-> fok fs /\ gok g.
Proof.
  induction fs as [|f fs IH]; intros g; [cbn; tauto|]. cbn [fill fok]. rewrite IH. rewrite gok_B. rewrite Forall_app, Forall_cons_iff. tauto.
Qed.
Lemma fhold_ext : forall fs h h' w, (forall a, In a (fexcl fs ++ fshra fs) -> h_get h' a = h_get h a) -> fhold h fs w -> fhold h' fs w.
Proof.
  induction fs as [|f fs IH]; intros h h' w E H; [exact I|]. cbn [fhold fexcl] in *. destruct H as (A & B & C & D).
  unfold fshra in E. cbn [fshr] in E. rewrite !fm_app in E.
  assert (X : forall l, Forall (holds h) l -> (forall x a, In x l -> In a (alla x) -> h_get h' a = h_get h a) -> Forall (holds h') l).
  { intros l Hl El. rewrite Forall_forall in *. intros x Hx. eapply holds_ext; [|apply Hl; auto]. intros a Ha. eapply El; eauto. }
  assert (Y : forall x a l, In x l -> In a (alla x) -> In a (flat_map excl l ++ flat_map iaddr (flat_map shr l))).
  { intros x a l Hx Ha. eapply Permutation_in in Ha; [|apply alla_split]. apply in_app_iff in Ha. apply in_app_iff. destruct Ha as [Ha|Ha]; [left; apply in_flat_map; eauto|right].
    rewrite fm_fm. apply in_flat_map. exists x. auto. }
  rewrite E by (cbn; auto). split; [exact A|]. split; [|split].
  - apply X; auto. intros x a Hx Ha. apply E. apply (Y x a _ Hx) in Ha. rewrite !in_app_iff in *. cbn. rewrite !in_app_iff. tauto.
  - apply X; auto. intros x a Hx Ha. apply E. apply (Y x a _ Hx) in Ha. rewrite !in_app_iff in *. cbn. rewrite !in_app_iff. tauto.
  - eapply IH; [|exact D]. intros a Ha. apply E. unfold fshra in Ha. rewrite !in_app_iff in *. cbn. rewrite !in_app_iff. tauto.
Qed.
(** a shared object of the tree has a place in it *)
Definition is_item (g : gnode) (it : item) : Prop :=
  match g, it with
  | GL true ka k _, SKey ka' k' => ka = ka' /\ k = k'
  | GB true _ _ aa tw, SArr aa' tw' => aa = aa' /\ tw = tw'
  | _, _ => False
  end.
Lemma fill_app : forall fs fs' g, fill (fs ++ fs') g = fill fs' (fill fs g).
Proof. induction fs as [|f fs IH]; intros; [auto|]. cbn. apply IH. Qed.
Lemma shr_place : forall g it, In it (shr g) -> exists fs sub, g = fill fs sub /\ is_item sub it.
Proof.
  induction g as [s ka k v|s i b aa tw IH] using gnode_ind2; intros it H; cbn [shr] in H; destruct s.
  - destruct H as [<-|[]]. exists [], (GL true ka k v). cbn. auto.
  - destruct H.
  - destruct H as [<-|[]]. exists [], (GB true i b aa tw). cbn. auto.
  - apply in_flat_map in H. destruct H as (c & Hc & H). rewrite Forall_forall in IH. destruct (IH c Hc it H) as (fs & sub & E & S). apply in_split in Hc. destruct Hc as (l & r & ->).
    exists (fs ++ [mkf i b aa l r]), sub. split; [|auto]. rewrite fill_app. cbn. rewrite <- E. auto.
Qed.
Lemma erase_fill_eq : forall fs g g', erase g = erase g' -> erase (fill fs g) = erase (fill fs g').
Proof. induction fs as [|f fs IH]; intros g g' E; [auto|]. cbn [fill]. apply IH. cbn [erase]. rewrite !map_app. cbn [map]. rewrite E. auto. Qed.
