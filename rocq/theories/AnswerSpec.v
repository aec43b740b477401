(** What a query to a zone is answered with: RFC 1034 section 4.3.2, RFC 4592 (wildcards), RFC 6672 (DNAME). Nothing here
    refers to how names are searched for or to flags of nodes. *)
From Verif Require Import Base RdatasetModel NodeModel ZoneModel.

(** The RRsets of a name; a name without RRsets may exist too, between the apex and a name with RRsets. *)
Definition exists_ (z : contents) (n : name) : Prop := ZoneModel.zget z false n <> None.
Definition owns (z : contents) (n : name) (t : Z) (r : rr_data) : Prop :=
  exists x, ZoneModel.zget z false n = Some x /\ In r (zn_rrs x) /\ rr_type r = t.
Definition owns_some (z : contents) (n : name) (t : Z) : Prop := exists r, owns z n t r.
(** [n] is [a] or a name below it. *)
Definition below (n a : name) : Prop := exists p, n = p ++ a.
(** A zone cut: an NS RRset below the apex, and none between. *)
Definition cut (z : contents) (c : name) : Prop :=
  below c (z_apex z) /\ c <> z_apex z /\ owns_some z c 2 /\
  forall a, below a (z_apex z) -> a <> z_apex z -> below c a -> owns_some z a 2 -> a = c.
Definition delegated (z : contents) (n : name) : Prop := exists c, cut z c /\ below n c.
(** The closest encloser of a name: the longest ancestor that exists. *)
Definition encloser (z : contents) (n c : name) : Prop :=
  exists_ z c /\ below n c /\ forall a, exists_ z a -> below n a -> below c a.
Definition star_of (c : name) : name := [42] :: c.
(** The name that supplies the records for [n]: itself or the wildcard at the closest encloser. *)
Inductive supplied (z : contents) (n : name) : name -> Prop :=
| s_self : exists_ z n -> supplied z n n
| s_wild : forall c, ~ exists_ z n -> encloser z n c -> exists_ z (star_of c) -> supplied z n (star_of c).

(** The query types that are answered with a CNAME itself: CNAME, RRSIG, NSEC, ANY. *)
Definition at_alias (t : Z) : Prop := t = 5 \/ t = 46 \/ t = 47 \/ t = 255.
(** Some of the records of an RRset. *)
Definition some_of (r' r : rr_data) : Prop :=
  rr_type r' = rr_type r /\ rr_ttl r' = rr_ttl r /\ 1 <= count (rr_rrs r') /\
  forall i d, 0 <= i -> rdataset_at (rr_rrs r') i = Ok d -> exists j, 0 <= j /\ rdataset_at (rr_rrs r) j = Ok d.
(** What the zone has for one name and type. *)
Inductive verdict :=
| Referral (c : name)
| Alias (s : name) (r : rr_data)
| Subst (s : name) (r : rr_data)
| Data (r : rr_data)
| NoData
| NoName.
Inductive judged (z : contents) (t : Z) (n : name) : verdict -> Prop :=
(* at or below a zone cut: a referral, except for DS at the cut *)
| j_referral : forall s c, supplied z n s -> cut z c -> below s c -> ~ (s = c /\ t = 43) -> judged z t n (Referral c)
| j_alias : forall s r, supplied z n s -> ~ (delegated z s /\ ~ (cut z s /\ t = 43)) -> ~ at_alias t -> owns z s 5 r -> judged z t n (Alias s r)
| j_data : forall s r, supplied z n s -> ~ (delegated z s /\ ~ (cut z s /\ t = 43)) -> (at_alias t \/ ~ owns_some z s 5) -> t <> 46 -> owns z s t r -> judged z t n (Data r)
(* some of the signatures *)
| j_sigs : forall s r r', supplied z n s -> ~ delegated z s -> t = 46 -> owns z s t r -> some_of r' r -> judged z t n (Data r')
| j_any : forall s t' r, supplied z n s -> ~ delegated z s -> t = 255 -> owns z s t' r -> judged z t n (Data r)
| j_nodata : forall s, supplied z n s -> ~ (delegated z s /\ ~ (cut z s /\ t = 43)) -> (at_alias t \/ ~ owns_some z s 5) ->
    ~ owns_some z s t -> (t = 255 -> forall t', ~ owns_some z s t') -> judged z t n NoData
(* no such name *)
| j_referral_above : forall e c, encloser z n e -> ~ exists_ z n -> ~ exists_ z (star_of e) -> cut z c -> below e c -> judged z t n (Referral c)
| j_subst : forall e r, encloser z n e -> ~ exists_ z n -> ~ exists_ z (star_of e) -> ~ delegated z e -> owns z e 39 r -> judged z t n (Subst e r)
| j_noname : forall e, encloser z n e -> ~ exists_ z n -> ~ exists_ z (star_of e) -> ~ delegated z e -> ~ owns_some z e 39 -> judged z t n NoName.

(** The wire format of a name. *)
Fixpoint wire_of (o : name) : list Z := match o with [] => [0] | l :: o => zlen l :: l ++ wire_of o end.
(** The record data of an RRset with one record. *)
Definition single (r : rr_data) (d : list Z) : Prop := rdataset_at (rr_rrs r) 0 = Ok d.
Definition points_to (r : rr_data) (m : name) : Prop := exists d rest, single r d /\ d = wire_of m ++ rest.
Definition is_cname (r : rr_data) (m : name) (ttl : Z) : Prop :=
  rr_type r = 5 /\ rr_ttl r = ttl /\ count (rr_rrs r) = 1 /\ rdataset_at (rr_rrs r) 0 = Ok (wire_of m).

(** How the resolution in the zone ends. *)
Inductive ending :=
| Answered
| Ref (c : name)     (* a zone cut was met *)
| Empty              (* the name has no such RRset *)
| Nonexistent
| Outside            (* the last alias leads out of the zone *)
| Looped             (* the alias was there before *)
| Limit              (* five aliases have been followed *)
| Overlong.          (* the name made from a DNAME is too long *)
Definition wild (s : name) : Prop := exists c, s = star_of c.
(** A DNAME that was given before is not given again. *)
Definition shown (h : list (name * Z)) (s : name) (r : rr_data) (d : list (name * rr_data)) : Prop := (In (s, 39) h /\ d = []) \/ (~ In (s, 39) h /\ d = [(s, r)]).
(** [resolves z t h n l e]: with the aliases of [h] (their names and types) followed so far, the name [n] gives the RRsets [l] for
    the answer section, and the resolution ends with [e]. *)
Inductive resolves (z : contents) (t : Z) : list (name * Z) -> name -> list (name * rr_data) -> ending -> Prop :=
| e_out : forall h n, h <> [] -> ~ below n (z_apex z) -> resolves z t h n [] Outside
| e_ref : forall h n c, below n (z_apex z) -> judged z t n (Referral c) -> resolves z t h n [] (Ref c)
| e_data : forall h n r, below n (z_apex z) -> judged z t n (Data r) -> resolves z t h n [(n, r)] Answered
| e_nodata : forall h n, below n (z_apex z) -> judged z t n NoData -> resolves z t h n [] Empty
| e_noname : forall h n, below n (z_apex z) -> judged z t n NoName -> resolves z t h n [] Nonexistent
| e_limit : forall h n s r, below n (z_apex z) -> judged z t n (Alias s r) \/ judged z t n (Subst s r) -> zlen h = 5 -> resolves z t h n [] Limit
| e_alias : forall h n s r m l e, below n (z_apex z) -> judged z t n (Alias s r) -> zlen h < 5 -> ~ In (s, 5) h ->
    points_to r m -> resolves z t ((s, 5) :: h) m l e -> resolves z t h n ((n, r) :: l) e
(* an alias is not repeated; that of a wildcard is, for another name *)
| e_loop : forall h n s r, below n (z_apex z) -> judged z t n (Alias s r) -> zlen h < 5 -> ~ wild s -> In (s, 5) h -> resolves z t h n [] Looped
| e_loop_wild : forall h n s r, below n (z_apex z) -> judged z t n (Alias s r) -> zlen h < 5 -> wild s -> In (s, 5) h -> resolves z t h n [(n, r)] Looped
(* the DNAME is given once, with a CNAME for every name *)
| e_subst : forall h n s r p m c d l e, below n (z_apex z) -> judged z t n (Subst s r) -> zlen h < 5 -> n = p ++ s -> points_to r m ->
    zlen (wire_of (p ++ m)) <= 255 -> is_cname c (p ++ m) (rr_ttl r) -> shown h s r d ->
    t <> 5 -> resolves z t ((s, 39) :: h) (p ++ m) l e -> resolves z t h n (d ++ (n, c) :: l) e
| e_subst_cname : forall h n s r p m c d, below n (z_apex z) -> judged z t n (Subst s r) -> zlen h < 5 -> n = p ++ s -> points_to r m ->
    zlen (wire_of (p ++ m)) <= 255 -> is_cname c (p ++ m) (rr_ttl r) -> shown h s r d ->
    t = 5 -> resolves z t h n (d ++ [(n, c)]) Answered
| e_subst_long : forall h n s r p m d, below n (z_apex z) -> judged z t n (Subst s r) -> zlen h < 5 -> n = p ++ s -> points_to r m ->
    255 < zlen (wire_of (p ++ m)) -> shown h s r d -> resolves z t h n d Overlong.
