(** The database of zones, src/knot/zone/zonedb.c, and the choice of the zone for a query, src/knot/nameserver/process_query.c.

    Simplifications. The trie is a list of keys with values (C29, C30 are about the trie itself), zones are numbers, and names
    are lists of labels in lower case. Allocation succeeds. *)
From Verif Require Import Base AddsModel.

(** src/knot/zone/zonedb.h:29-32 *)
Definition zonedb : Type := list (list Z * Z).
(** trie_get_try, src/contrib/qp-trie/trie.c:435-443 *)
Fixpoint zget (db : zonedb) (k : list Z) : option Z :=
  match db with (k', z) :: db => if list_eq_dec Z.eq_dec k' k then Some z else zget db k | [] => None end.
(** trie_del, src/contrib/qp-trie/trie.c:529 *)
Definition zdel (db : zonedb) (k : list Z) : zonedb := filter (fun p => if list_eq_dec Z.eq_dec (fst p) k then false else true) db.

(** src/knot/zone/zonedb.c:68-82; the key is [key] of AddsModel.v, src/libknot/dname.c:764-791 *)
Definition zonedb_insert (db : zonedb) (n : name) (z : Z) : zonedb := (key n, z) :: zdel db (key n).
(** src/knot/zone/zonedb.c:84-100 *)
Definition zonedb_del (db : zonedb) (n : name) : Z * zonedb :=
  match zget db (key n) with None => (KNOT_ENOENT, db) | Some _ => (KNOT_EOK, zdel db (key n)) end.
(** src/knot/zone/zonedb.c:102-118 *)
Definition zonedb_find (db : zonedb) (n : name) : option Z := zget db (key n).
(** src/knot/zone/zonedb.c:138-159 *)
Fixpoint zonedb_find_suffix (db : zonedb) (n : name) : option Z :=
  match zget db (key n) with
  | Some z => Some z
  | None => match n with [] => None | _ :: parent => zonedb_find_suffix db parent end
  end.

(** src/libknot/consts.h, src/libknot/descriptor.h *)
Definition CLASS_IN : Z := 1.
Definition CLASS_ANY : Z := 255.
Definition TYPE_DS : Z := 43.
(** src/knot/nameserver/process_query.c:189-226; [normal] is query_type(query) == KNOTD_QUERY_TYPE_NORMAL *)
Definition answer_zone_find (db : zonedb) (qclass qtype : Z) (normal : bool) (qname : name) : option Z :=
  if negb (qclass =? CLASS_IN) && negb (qclass =? CLASS_ANY) then None
  else
    let zone := match qname with
                | _ :: parent => if qtype =? TYPE_DS then zonedb_find_suffix db parent else None
                | [] => None
                end in
    match zone with
    | Some z => Some z
    | None => if normal then zonedb_find_suffix db qname else zonedb_find db qname
    end.

(** Changes of the database: zonedb-load.c, catalogs, knotc *)
Inductive change := Insert (n : name) (z : Z) | Delete (n : name).
(** src/knot/zone/zonedb.c:68-100, in their order *)
Definition do_change (db : zonedb) (c : change) : zonedb :=
  match c with Insert n z => zonedb_insert db n z | Delete n => snd (zonedb_del db n) end.
(** src/knot/zone/zonedb-load.c, from an empty database on *)
Definition run_changes (cs : list change) : zonedb := fold_left do_change cs [].
