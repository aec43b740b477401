(** What catalogs are for: a zone is a member of the catalog which lists it. *)
From Verif Require Import Base ZoneModel CatalogModel.

(** The PTR record and the catalog zone a member belongs to, and its group *)
Definition holder := option (name * name * list Z).
(** according to the database *)
Definition member_of (d : cdb) (m : name) : holder := option_map (fun v => (fst (fst v), catz_of v, snd v)) (aget m d).

Definition held (h : holder) (o : cop) : bool :=
  match h with Some (ow, c, _) => name_eqb ow (co_o o) && name_eqb c (co_c o) | None => false end.
(** What a change means for zone [m]: the first one to list it has it, until they stop listing it. *)
Definition hstep (m : name) (h : holder) (o : cop) : holder :=
  if negb (name_eqb m (co_m o)) then h else
  match co_type o with
  | UAdd => match h with None => Some (co_o o, co_c o, []) | Some _ => h end
  | URem => if held h o then None else h
  | UProp => if held h o then Some (co_o o, co_c o, co_g o) else h
  | _ => h
  end.

(** The changes come from catalog zones in the configuration: the owner is below "zones" in them. *)
Definition proper (cfg : name -> bool) (o : cop) : Prop :=
  (co_type o = URem \/ co_type o = UAdd \/ co_type o = UProp) /\ cfg (co_c o) = true /\
  (co_type o <> UProp -> co_g o = []) /\
  exists l, co_o o = l ++ co_c o /\ (2 <= length l)%nat.

(** No conflict of two catalogs about zone [m]: it isn't added while it is a member of something, and nobody else
    removes it or sets its group without being checked; after a change of its group it isn't added again
    before the commit. [p]: the group has been changed. *)
Fixpoint calm (m : name) (h : holder) (p : bool) (ops : list cop) : Prop :=
  match ops with
  | [] => True
  | o :: r =>
      (name_eqb m (co_m o) = true ->
       match co_type o with
       | UAdd => h = None /\ p = false
       | _ => co_chk o = true \/ held h o = true
       end) /\
      calm m (hstep m h o) (p || (name_eqb m (co_m o) && match co_type o with UProp => held h o | _ => false end)) r
  end.

(** The whole way from the changes to the database, when memory and LMDB don't fail *)
Definition process (d : cdb) (ops : list cop) (cfg : name -> bool) : res cdb :=
  let* (u, _) := run_ops [] d ops [] in
  let* u := finalize u d cfg [] in
  let* (d, _) := update_commit u d false in
  Ok d.

(** The catalog zones: their member nodes *)
Definition zones := name -> list centry.
Definition zset (z : zones) (c : name) (l : list centry) : zones := fun c' => if name_eqb c' c then l else z c'.
Definition lists (z : zones) (m o c : name) : Prop := exists g, In (mkce o m g) (z c).
(** Every member node is below "zones", no owner is there twice. Nothing is listed twice, nor in the configuration. No groups. *)
Definition orderly (cfg : name -> bool) (z : zones) : Prop :=
  (forall c e, In e (z c) -> cfg c = true /\ cfg (e_m e) = false /\ e_g e = None /\ exists l, e_o e = l ++ c /\ (2 <= length l)%nat) /\
  (forall c, NoDup (map e_o (z c))) /\
  (forall m o c o' c', lists z m o c -> lists z m o' c' -> o = o' /\ c = c').

(** The server: changes of catalog zones one by one, each processed at once or with the following ones. The zone is
    replaced as a whole only when nothing waits. *)
Inductive csteps (cfg : name -> bool) : zones -> cupd -> cdb -> Prop :=
| cs_0 : csteps cfg (fun _ => []) [] []
| cs_diff : forall z u d c new u', csteps cfg z u d -> orderly cfg (zset z c new) ->
    run_ops u d (diff_ops c (z c) new) [] = Ok (u', KNOT_EOK) -> csteps cfg (zset z c new) u' d
| cs_full : forall z d c new u', csteps cfg z [] d -> orderly cfg (zset z c new) ->
    run_ops [] d (full_ops c d new) [] = Ok (u', KNOT_EOK) -> csteps cfg (zset z c new) u' d
| cs_commit : forall z u d u' d', csteps cfg z u d ->
    finalize u d cfg [] = Ok u' -> update_commit u' d false = Ok (d', KNOT_EOK) -> csteps cfg z [] d'.
