(** Incremental updates of a zone as sequences of operations: src/knot/updates/zone-update.c. *)
From Verif Require Import Base RdatasetModel NodeModel ZoneModel.

(** src/knot/updates/zone-update.c:39-78: the new contents start as the old ones and the old SOA is noted. A zone without
    SOA is refused *)
Definition update_init (z : contents) : res update :=
  match node_rrset (zn_rrs (z_apexn z)) SOA with
  | None => Err KNOT_ENOMEM
  | Some e => Ok (mkup z (Some (mkch (contents_new (z_apex z)) (contents_new (z_apex z)) (Some (z_apex z, e)) None)))
  end.
(** src/knot/zone/contents.c:255-266, zone_contents_node_or_nsec3: the tree of normal nodes first; the flag tells which *)
Definition node_or_nsec3 (z : contents) (o : name) : option (bool * znode) :=
  match zget z false o with
  | Some n => Some (false, n)
  | None => match zget z true o with Some n => Some (true, n) | None => None end
  end.
(** src/knot/updates/zone-update.c:569-586 *)
Definition zone_update_remove_rrset (strict : bool) (u : update) (o : name) (type : Z) : res update :=
  match node_or_nsec3 (u_new u) o with
  | None => Err KNOT_ENONODE
  | Some (_, n) =>
    match node_rrset (zn_rrs n) type with
    | None => Err KNOT_ENOENT
    | Some e => zone_update_remove strict u (o, e)
    end
  end.
(** src/knot/updates/zone-update.c:588-609: the RRsets of the node from the last one. The node is read again after each
    removal in the code, with the index counted from the original number: the RRsets before the removed one are in place *)
Definition zone_update_remove_node (strict : bool) (u : update) (o : name) : res update :=
  match node_or_nsec3 (u_new u) o with
  | None => Err KNOT_ENONODE
  | Some (_, n) => fold_res (fun u e => zone_update_remove strict u (o, e)) (rev (zn_rrs n)) u
  end.

(** The operations a user of an update performs. *)
Inductive uop := UAdd (s : rrset) | URemove (s : rrset).
Definition ustep (strict : bool) (u : update) (op : uop) : res update :=
  match op with UAdd s => zone_update_add 3 strict u s | URemove s => zone_update_remove strict u s end.
Definition urun (strict : bool) (ops : list uop) (u : update) : res update := fold_res (ustep strict) ops u.
