From Verif Require Import Base WireModel WireProofs WireProps DnameModel DnameSpec DnameProofs DnameProofs2 DnameProofs4 LmdbModel LmdbProofs LmdbProofs2 LmdbProps KeyModel SerialModel KaspModel KaspSpec.
From Coq Require Import Sorting.Sorted.

(** How facts are stored *)
Definition kenc (s : subject) : list Z :=
  match s with
  | SubKey z id => 1 :: wire z ++ id ++ [0]
  | SubPolicy pol => 2 :: pol ++ [0]
  | SubSalt z => 3 :: wire z
  | SubSaltTime z => 4 :: wire z
  | SubMasterSerial z => 5 :: wire z
  | SubSignedSerial z => 6 :: wire z
  | SubTtls z => 8 :: wire z
  end.
Definition pargs (p : kparams) : list karg :=
  [KL (zlen (kp_public p)); KL 8; KH (kp_keytag p); KB (kp_alg p); KB (kp_flags p);
   KL (kt_created p); KL (kt_pre_active p); KL (kt_publish p); KL (kt_ready p); KL (kt_active p);
   KL (kt_retire_active p); KL (kt_retire p); KL (kt_post_active p); KL (kt_remove p); KD (kp_public p)].
Definition penc (p : kparams) : list Z := encs (pargs p) ++ be 8 (kt_revoke p).
Definition venc (c : content) : list Z :=
  match c with
  | IsKey p => penc p
  | IsSalt s => s
  | IsTime t => be 8 t
  | IsSerial s => be 4 s
  | IsTtls a b => be 4 a ++ be 4 b
  | IsLast z id => 1 :: wire z ++ id ++ [0]
  end.
Definition subject_ok (s : subject) : Prop :=
  match s with
  | SubKey z id => zone_ok z /\ string_ok id
  | SubPolicy pol => string_ok pol
  | SubSalt z | SubSaltTime z | SubMasterSerial z | SubSignedSerial z | SubTtls z => zone_ok z
  end.
Definition content_ok (s : subject) (c : content) : Prop :=
  match s, c with
  | SubKey _ id, IsKey p => params_ok p /\ kp_id p = id
  | SubPolicy _, IsLast z id => zone_ok z /\ string_ok id
  | SubSalt _, IsSalt s => bytes s
  | SubSaltTime _, IsTime t => u64_ok t
  | SubMasterSerial _, IsSerial s => u32_ok s
  | SubSignedSerial _, IsSerial s => u32_ok s
  | SubTtls _, IsTtls a b => u32_ok a /\ u32_ok b
  | _, _ => False
  end.
Definition represents (d : db) (st : state) : Prop :=
  sorted d /\ (forall k v, In (k, v) d <-> exists s c, st s c /\ k = kenc s /\ v = venc c) /\
  (forall s c, st s c -> subject_ok s /\ content_ok s c) /\ (forall s c c', st s c -> st s c' -> c = c').

(** Names end by themselves. *)
Lemma wire_free : forall a b x y, zone_ok a -> zone_ok b -> wire a ++ x = wire b ++ y -> a = b /\ x = y.
Proof.
  intros a b x y (Ha & _) (Hb & _) E. destruct (name_bytes_wire a x Ha) as (A & _). destruct (name_bytes_wire b y Hb) as (B & _). rewrite E in A. assert (W : wire a = wire b) by congruence.
  apply wire_inj in W; [|exact Ha|exact Hb]. subst b. split; [reflexivity|]. apply app_inv_head in E. exact E.
Qed.
Lemma str_free : forall a b x, ~ In 0 a -> ~ In 0 b -> a ++ 0 :: x = b ++ [0] -> a = b.
Proof.
  induction a as [|c a IH]; intros [|e b] x Ha Hb E; cbn [app] in E; [reflexivity| | |].
  - injection E as <- _. exfalso. apply Hb. left. reflexivity.
  - injection E as -> _. exfalso. apply Ha. left. reflexivity.
  - injection E as -> E. f_equal. apply (IH b x); [intros C; apply Ha; right; exact C|intros C; apply Hb; right; exact C|exact E].
Qed.
Lemma kenc_inj : forall s s', subject_ok s -> subject_ok s' -> kenc s = kenc s' -> s = s'.
Proof.
  assert (W : forall a b, zone_ok a -> zone_ok b -> wire a = wire b -> a = b) by (intros a b Ha Hb E; apply (wire_free a b [] []); auto; rewrite !app_nil_r; exact E).
  intros s s' Hs Hs' E. destruct s, s'; cbn [kenc subject_ok] in *; try discriminate E; injection E as E.
  - destruct Hs as (Hz & _), Hs' as (Hz' & _). apply wire_free in E; [|assumption|assumption]. destruct E as (-> & E). apply app_inv_tail in E. subst. reflexivity.
  - f_equal; apply W; assumption.
  - f_equal; apply W; assumption.
  - f_equal; apply W; assumption.
  - f_equal; apply W; assumption.
  - f_equal; apply W; assumption.
  - apply app_inv_tail in E. subst. reflexivity.
Qed.
Lemma starts_key : forall z id s, zone_ok z -> string_ok id -> subject_ok s -> starts_with (kenc (SubKey z id)) (kenc s) <-> s = SubKey z id.
Proof.
  intros z id s Hz (_ & Hi & _) Hs. split; [|intros ->; exists []; rewrite app_nil_r; reflexivity].
  intros (r & E). destruct s; cbn [kenc app] in E; try discriminate E. injection E as E. destruct Hs as (Hz' & (_ & Hi' & _)). rewrite <- !app_assoc in E. cbn [app] in E.
  apply wire_free in E; [|assumption|assumption]. destruct E as (-> & E). symmetry in E. apply str_free in E; [|assumption|assumption]. subst. reflexivity.
Qed.
Definition class_of (s : subject) : Z :=
  match s with SubKey _ _ => 1 | SubPolicy _ => 2 | SubSalt _ => 3 | SubSaltTime _ => 4 | SubMasterSerial _ => 5 | SubSignedSerial _ => 6 | SubTtls _ => 8 end.
Lemma starts_zone : forall c z s, c <> 2 -> zone_ok z -> subject_ok s -> starts_with (c :: wire z) (kenc s) <-> class_of s = c /\ about_zone z s.
Proof.
  intros c z s Hc Hz Hs.
  assert (W : forall z' r x, zone_ok z' -> wire z' ++ x = wire z ++ r -> z' = z) by (intros z' r x Hz' E; apply (wire_free z' z x r) in E; tauto).
  split.
  - intros (r & E). destruct s; cbn [kenc app class_of about_zone subject_ok] in *; injection E as <- E; try (split; [reflexivity|]).
    + destruct Hs as (Hz' & _). apply (W _ _ _ Hz' E).
    + rewrite <- (app_nil_r (wire z0)) in E. apply (W _ _ _ Hs E).
    + rewrite <- (app_nil_r (wire z0)) in E. apply (W _ _ _ Hs E).
    + rewrite <- (app_nil_r (wire z0)) in E. apply (W _ _ _ Hs E).
    + rewrite <- (app_nil_r (wire z0)) in E. apply (W _ _ _ Hs E).
    + rewrite <- (app_nil_r (wire z0)) in E. apply (W _ _ _ Hs E).
    + congruence.
  - intros (E & A). destruct s; cbn [kenc class_of about_zone] in *; subst; try (exists []; rewrite app_nil_r; reflexivity); [|contradiction]. exists (id ++ [0]). reflexivity.
Qed.
Lemma kenc_len : forall s, subject_ok s -> 0 < zlen (kenc s) <= LMDB_MAXKEY.
Proof.
  intros s H. unfold LMDB_MAXKEY. assert (W : forall z, zone_ok z -> 1 <= zlen (wire z) <= 255).
  { intros z (L & N). rewrite zlen_wire. split; [|exact N]. clear N. induction L as [|l z Hl L IH]; cbn [name_size]; [lia|]. destruct Hl as (Hl & _). lia. }
  destruct s; cbn [kenc subject_ok] in *; rewrite zlen_cons, ?zlen_app.
  1: destruct H as (Hz & _ & _ & Hl); specialize (W z Hz); change (zlen [0]) with 1; pose proof (zlen_nonneg id); lia.
  1-5: specialize (W z H); lia.
  destruct H as (_ & _ & Hl). change (zlen [0]) with 1. pose proof (zlen_nonneg policy). lia.
Qed.

(** Keys are made right. *)
Lemma made_ok : forall l, l <> [] -> Forall karg_ok l -> zlen (encs l) < 2 ^ 63 -> made (make_key true 0 l) = Ok (encs l).
Proof. intros l H1 H2 H3. unfold made. rewrite (proj1 (c53_make_key 0 l H1 H2 H3)). reflexivity. Qed.
Lemma zone_arg : forall z, zone_ok z -> karg_ok (KN (wire z)) /\ enc (KN (wire z)) = wire z /\ zlen (wire z) <= 255.
Proof.
  intros z (L & N). split; [exists z, []; rewrite app_nil_r; split; [exact L|reflexivity]|]. split; [|rewrite zlen_wire; exact N]. cbn [enc].
  pose proof (proj1 (name_bytes_wire z [] L)) as E. rewrite app_nil_r in E. exact E.
Qed.
Lemma be1 : forall c, 0 <= c < 2 ^ 8 -> enc (KB c) = [c].
Proof. intros c H. cbn [enc be]. f_equal. change (256 ^ Z.of_nat 0) with 1. rewrite Z.div_1_r. apply Z.mod_small. lia. Qed.
Lemma make_zone : forall c z, 0 <= c < 2 ^ 8 -> zone_ok z -> made (make_key true 0 [KB c; KN (wire z)]) = Ok (c :: wire z).
Proof.
  intros c z Hc Hz. destruct (zone_arg z Hz) as (A & B & C). assert (E : encs [KB c; KN (wire z)] = c :: wire z) by (unfold encs; cbn [map concat]; rewrite be1, B by exact Hc; cbn [app]; rewrite app_nil_r; reflexivity).
  rewrite made_ok; [rewrite E; reflexivity|discriminate| |rewrite E, zlen_cons; lia]. constructor; [exact Hc|]. constructor; [exact A|constructor].
Qed.
Lemma key_args : forall z id, zone_ok z -> string_ok id -> Forall karg_ok [KB 1; KN (wire z); KS id] /\ encs [KB 1; KN (wire z); KS id] = kenc (SubKey z id) /\ zlen (kenc (SubKey z id)) < 2 ^ 63.
Proof.
  intros z id Hz Hi. destruct (zone_arg z Hz) as (A & B & C). pose proof Hi as (I1 & I2 & I3). split; [|split].
  - constructor; [cbn; lia|]. constructor; [exact A|]. constructor; [split; assumption|constructor].
  - unfold encs. cbn [map concat]. rewrite be1 by lia. rewrite B. cbn [enc app kenc]. rewrite app_nil_r. reflexivity.
  - pose proof (kenc_len (SubKey z id) (conj Hz Hi)) as L. unfold LMDB_MAXKEY in L. lia.
Qed.
Lemma make_keyid : forall z id, zone_ok z -> string_ok id -> make_key_str KC_PARAMS (Some (wire z)) (Some id) = Ok (kenc (SubKey z id)).
Proof.
  intros z id Hz Hi. destruct (key_args z id Hz Hi) as (A & B & C). unfold make_key_str. change (KC_PARAMS =? KC_POLICYLAST) with false. change ((KC_PARAMS =? KC_PARAMS) || (KC_PARAMS =? KC_OFFLINE_RECORDS)) with true. cbv iota.
  change KC_PARAMS with 1. rewrite made_ok; [rewrite B; reflexivity|discriminate|exact A|rewrite B; exact C].
Qed.
Lemma make_class : forall c z, 0 <= c < 2 ^ 8 -> c <> 2 -> zone_ok z -> make_key_str c (Some (wire z)) None = Ok (c :: wire z).
Proof.
  intros c z Hc H2 Hz. unfold make_key_str. assert (c =? KC_POLICYLAST = false) as -> by (unfold KC_POLICYLAST; lia). destruct ((c =? KC_PARAMS) || (c =? KC_OFFLINE_RECORDS)); apply make_zone; assumption.
Qed.
Lemma make_policy : forall pol, string_ok pol -> make_key_str KC_POLICYLAST None (Some pol) = Ok (kenc (SubPolicy pol)).
Proof.
  intros pol (I1 & I2 & I3). unfold make_key_str. change (KC_POLICYLAST =? KC_POLICYLAST) with true. cbv iota. change KC_POLICYLAST with 2.
  assert (E : encs [KB 2; KS pol] = kenc (SubPolicy pol)) by (unfold encs; cbn [map concat]; rewrite be1 by lia; cbn [enc app kenc]; rewrite app_nil_r; reflexivity).
  rewrite made_ok; [rewrite E; reflexivity|discriminate| |rewrite E; cbn [kenc]; rewrite zlen_cons, zlen_app; change (zlen [0]) with 1; lia]. constructor; [cbn; lia|]. constructor; [split; assumption|constructor].
Qed.
(** ... and read back. *)
Lemma cstr_ok : forall s j, ~ In 0 s -> cstr (s ++ 0 :: j) = Ok s.
Proof.
  induction s as [|c s IH]; intros j H; cbn [app cstr]; [reflexivity|]. assert (c =? 0 = false) as -> by (destruct (c =? 0) eqn:E; [exfalso; apply H; left; lia|reflexivity]).
  rewrite IH by (intros C; apply H; right; exact C). reflexivity.
Qed.
Lemma unmake_keyid : forall z id, zone_ok z -> string_ok id -> unmake_key (Some (kenc (SubKey z id))) [FB true; FN true; FS true] = Ok (true, [VInt 1; VPos 1; VPos (1 + zlen (wire z))]).
Proof.
  intros z id Hz Hi. destruct (key_args z id Hz Hi) as (A & B & C). destruct (zone_arg z Hz) as (_ & E & _).
  pose proof (c53_key_round_trip [KB 1; KN (wire z); KS id] ltac:(discriminate) A ltac:(rewrite B; exact C)) as R. rewrite B in R. cbn [map fmt vals] in R. rewrite E in R. rewrite R. reflexivity.
Qed.
Lemma skip_zone : forall c z r, zskipn (1 + zlen (wire z)) (c :: wire z ++ r) = r.
Proof. intros. pose proof (zskipn_app_exact (c :: wire z) r) as H. rewrite zlen_cons in H. replace (1 + zlen (wire z)) with (zlen (wire z) + 1) by lia. replace (zlen (wire z) + 1) with (1 + zlen (wire z)) by lia. first [exact H|replace (1 + zlen (wire z)) with (zlen (wire z) + 1) by lia; exact H]. Qed.
Lemma unmake_str : forall z id, zone_ok z -> string_ok id -> unmake_key_str (kenc (SubKey z id)) = Ok (Some id).
Proof.
  intros z id Hz Hi. unfold unmake_key_str. rewrite unmake_keyid by assumption. cbn [rbind negb]. cbn [kenc]. rewrite skip_zone. pose proof Hi as (_ & I2 & _). rewrite cstr_ok by exact I2. reflexivity.
Qed.
