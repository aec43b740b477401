(** Catalog zones: src/knot/catalog/catalog_update.c, interpret.c, catalog_db.c and their use in
    src/knot/updates/zone-update.c. Domain names are lists of labels without the root label, the order of
    labels is that of the wire format. *)
From Verif Require Import Base ZoneModel.

(** src/knot/catalog/catalog_update.h:25-33 *)
Inductive ctype : Type := UInvalid | UAdd | URem | UMinor | UUniq | UProp.
(** src/knot/catalog/catalog_update.h:35-45: catalog_upd_val_t. The owner and the catalog zone are one pointer
    into the other, they are NULL together. The group is a C string without zeros. *)
Record cval : Type := mkcv {
  v_type : ctype; v_rem : option (name * name); v_add : option (name * name); v_group : option (list Z) }.
(** src/knot/catalog/catalog_update.h:47-51: catalog_update_t.upd, the trie of C29 by member name *)
Definition cupd := list (name * cval).
(** The catalog database, src/knot/catalog/catalog_db.c:182-198: by member name the owner, the shift to the catalog zone (here in
    labels) and the group. catalog_del() deletes by prefix; no name in wire format is a prefix of another one. *)
Definition cdb := list (name * (name * nat * list Z)).

Fixpoint aget {A : Type} (m : name) (l : list (name * A)) : option A :=
  match l with
  | [] => None
  | (k, v) :: r => if name_eqb m k then Some v else aget m r
  end.
Fixpoint adel {A : Type} (m : name) (l : list (name * A)) : list (name * A) :=
  match l with
  | [] => []
  | (k, v) :: r => if name_eqb m k then adel m r else (k, v) :: adel m r
  end.
Definition aset {A : Type} (m : name) (v : A) (l : list (name * A)) : list (name * A) := (m, v) :: adel m l.

(** src/knot/catalog/catalog_db.c:43-53: the number of labels of [sub] above [nm] *)
Fixpoint bailiwick_shift (sub nm : name) : option nat :=
  if name_eqb sub nm then Some O else
  match sub with
  | [] => None
  | _ :: r => option_map S (bailiwick_shift r nm)
  end.

(** src/knot/catalog/catalog_db.c:211-220, 256-276: lookups in the read-only transaction; without one nothing is found *)
Definition catz_of (v : name * nat * list Z) : name := skipn (snd (fst v)) (fst (fst v)).
Definition has_member (d : cdb) (m : name) : bool := match aget m d with Some _ => true | None => false end.
Definition contains_exact (d : cdb) (m o c : name) : bool :=
  match aget m d with
  | Some v => name_eqb o (fst (fst v)) && name_eqb c (catz_of v)
  | None => false
  end.

(** src/knot/catalog/catalog_update.c:88-119 *)
Definition upd_val_new (o c : name) (ty : ctype) : cval :=
  match ty with
  | URem => mkcv ty (Some (o, c)) None None
  | _ => mkcv ty None (Some (o, c)) None
  end.
(** src/knot/catalog/catalog_update.c:122-126 *)
Definition upd_val_equal (v : cval) (o c : name) : bool :=
  match v_add v with Some (o', c') => name_eqb c' c && name_eqb o' o | None => false end.
(** src/knot/catalog/catalog_update.c:128-146: the label below "zones", the assertion fails with NULL as well *)
Definition get_uniq (oc : option (name * name)) : res (list Z) :=
  match oc with
  | None => UB
  | Some (o, c) =>
      if (length o <? length c + 2)%nat then UB else Ok (nth (length o - length c - 2) o [])
  end.
Definition same_uniq (a b : option (name * name)) : res bool :=
  let* x := get_uniq a in let* y := get_uniq b in Ok (bytes_eqb x y).

(** src/knot/catalog/catalog_update.c:148-165 with a check. [fail]: no memory; the old group is freed before *)
Definition set_prop (v : cval) (o c : name) (g : list Z) (fail : bool) : cval * Z :=
  if match v_type v with URem => true | _ => false end || negb (upd_val_equal v o c) then (v, KNOT_EOK) else
  if fail then (mkcv (v_type v) (v_rem v) (v_add v) None, KNOT_ENOMEM)
  else (mkcv (v_type v) (v_rem v) (v_add v) (Some g), KNOT_EOK).

(** src/knot/catalog/catalog_update.c:167-248. [ty] is one of URem, UAdd, UProp; [g] is "" for group_len 0.
    [chk]: check_rem; [fail]: one of the allocations fails. *)
Definition update_add (u : cupd) (m o c : name) (ty : ctype) (g : list Z) (chk : option cdb) (fail : bool) : res (cupd * Z) :=
  match bailiwick_shift o c with
  | None => Ok (u, KNOT_EOUTOFZONE)
  | Some _ =>
      match aget m u with
      | Some v =>
          match ty with
          | URem =>
              match v_type v with
              | URem => Ok (u, KNOT_EOK)
              | _ =>
                  if negb (upd_val_equal v o c) then Ok (u, KNOT_EOK) else
                  match v_type v with
                  | UAdd => Ok (adel m u, KNOT_EOK)
                  | _ => Ok (aset m (mkcv URem (v_rem v) (v_add v) (v_group v)) u, KNOT_EOK)
                  end
              end
          | UProp => let '(v, ret) := set_prop v o c g fail in Ok (aset m v u, ret)
          | UAdd =>
              match v_type v with
              | URem =>
                  if fail then Ok (u, KNOT_ENOMEM) else
                  let* same := same_uniq (v_rem v) (Some (o, c)) in
                  Ok (aset m (mkcv (if same : bool then UMinor else UUniq) (v_rem v) (Some (o, c)) (v_group v)) u, KNOT_EOK)
              | _ => Ok (u, KNOT_EOK)
              end
          | _ => UB
          end
      | None =>
          match ty, chk with
          | URem, Some d | UProp, Some d => if negb (contains_exact d m o c) then Ok (u, KNOT_EOK) else
              if fail then Ok (u, KNOT_ENOMEM) else
              let v := upd_val_new o c ty in
              Ok (aset m (mkcv (v_type v) (v_rem v) (v_add v) (match g with [] => None | _ => Some g end)) u, KNOT_EOK)
          | UAdd, Some d => if has_member d m then Ok (u, KNOT_EOK) else
              if fail then Ok (u, KNOT_ENOMEM) else
              let v := upd_val_new o c ty in
              Ok (aset m (mkcv (v_type v) (v_rem v) (v_add v) (match g with [] => None | _ => Some g end)) u, KNOT_EOK)
          | _, _ =>
              if fail then Ok (u, KNOT_ENOMEM) else
              let v := upd_val_new o c ty in
              Ok (aset m (mkcv (v_type v) (v_rem v) (v_add v) (match g with [] => None | _ => Some g end)) u, KNOT_EOK)
          end
      end
  end.

(** src/knot/catalog/catalog_update.c:259-282. [cfg]: the zones in the configuration *)
Definition check_member (m : name) (v : cval) (cfg : name -> bool) (d : cdb) : bool :=
  match v_type v with
  | URem | UInvalid | UProp => true
  | _ =>
      match v_add v with
      | None => false
      | Some (_, c) => cfg c && negb (cfg m) && negb (match v_type v with UAdd => has_member d m | _ => false end)
      end
  end.
(** src/knot/catalog/catalog_update.c:289-319; [fl]: which allocations fail; an error ends catalog_apply() *)
Fixpoint rem_conflicts (u : cupd) (l : cdb) (cfg : name -> bool) (fl : list bool) : res cupd :=
  match l with
  | [] => Ok u
  | (m, v) :: r =>
      if cfg m then
        let* (u, ret) := update_add u m (fst (fst v)) (catz_of v) URem [] None (hd false fl) in
        if ret =? KNOT_EOK then rem_conflicts u r cfg (tl fl) else Ok u
      else rem_conflicts u r cfg fl
  end.
Definition checked (d : cdb) (cfg : name -> bool) (m : name) (v : cval) : cval :=
  if check_member m v cfg d then v else
  mkcv (match v_type v with UAdd => UInvalid | _ => URem end) (v_rem v) (v_add v) (v_group v).
Definition finalize (u : cupd) (d : cdb) (cfg : name -> bool) (fl : list bool) : res cupd :=
  rem_conflicts (map (fun mv => (fst mv, checked d cfg (fst mv) (snd mv))) u) d cfg fl.

(** src/knot/catalog/catalog_db.c:177-208 *)
Definition catalog_add (d : cdb) (m o c : name) (g : list Z) : cdb * Z :=
  match bailiwick_shift o c with
  | None => (d, KNOT_EOUTOFZONE)
  | Some b => (aset m (o, b, g) d, KNOT_EOK)
  end.
(** src/knot/catalog/catalog_update.c:321-362. The changes are made in one transaction: [fail] is an error of LMDB
    at any place in it. *)
Definition commit_one (m : name) (v : cval) (d : cdb) : res (cdb * Z) :=
  match v_type v with
  | UAdd | UMinor | UUniq | UProp =>
      match v_add v with
      | None => UB
      | Some (o, c) => Ok (catalog_add d m o c (match v_group v with None => [] | Some g => g end))
      end
  | URem => Ok (adel m d, KNOT_EOK)
  | UInvalid => Ok (d, KNOT_EOK)
  end.
Fixpoint commit_loop (u : cupd) (d : cdb) : res (cdb * Z) :=
  match u with
  | [] => Ok (d, KNOT_EOK)
  | (m, v) :: r =>
      let* (d, ret) := commit_one m v d in
      if ret =? KNOT_EOK then commit_loop r d else Ok (d, ret)
  end.
Definition update_commit (u : cupd) (d : cdb) (fail : bool) : res (cdb * Z) :=
  match u with
  | [] => Ok (d, KNOT_EOK)
  | _ =>
      if fail then Ok (d, KNOT_ERROR) else
      let* (d', ret) := commit_loop u d in
      if ret =? KNOT_EOK then Ok (d', KNOT_EOK) else Ok (d, ret)
  end.

(** What a change of catalog zone [c] hands over to catalog_update_add(). [co_chk]: with the check against the database *)
Record cop : Type := mkco { co_type : ctype; co_m : name; co_o : name; co_c : name; co_g : list Z; co_chk : bool }.
(** src/knot/catalog/interpret.c:193-227: it ends with an error *)
Fixpoint run_ops (u : cupd) (d : cdb) (ops : list cop) (fl : list bool) : res (cupd * Z) :=
  match ops with
  | [] => Ok (u, KNOT_EOK)
  | o :: r =>
      let* (u, ret) := update_add u (co_m o) (co_o o) (co_c o) (co_type o) (co_g o) (if co_chk o then Some d else None) (hd false fl) in
      if ret =? KNOT_EOK then run_ops u d r (tl fl) else Ok (u, ret)
  end.

(** A member node of a catalog zone: its owner, the target of its only PTR record (catalog_zone_verify()), the
    first string of its group TXT record *)
Record centry : Type := mkce { e_o : name; e_m : name; e_g : option (list Z) }.
Fixpoint eget (o : name) (l : list centry) : option centry :=
  match l with
  | [] => None
  | e :: r => if name_eqb o (e_o e) then Some e else eget o r
  end.
(** src/knot/catalog/interpret.c:118-148: the PTR record isn't in the other version of the node *)
Definition same_ptr (e : centry) (other : list centry) : bool :=
  match eget (e_o e) other with Some e' => name_eqb (e_m e) (e_m e') | None => false end.
(** src/knot/catalog/interpret.c:150-191: the group isn't in the other version of the node *)
Definition same_txt (e : centry) (other : list centry) : bool :=
  match e_g e with
  | None => true
  | Some g => match eget (e_o e) other with Some (mkce _ _ (Some g')) => bytes_eqb g g' | _ => false end
  end.
(** src/knot/catalog/interpret.c:193-227, src/knot/updates/zone-update.c:748-763: a change of the catalog zone from [old]
    to [new], the removed nodes first, then the added ones; the subtree of a node follows the node *)
Definition rem_ops (c : name) (old new : list centry) : list cop :=
  flat_map (fun e => (if same_ptr e new then [] else [mkco URem (e_m e) (e_o e) c [] true]) ++
                     (if same_txt e new then [] else [mkco UProp (e_m e) (e_o e) c [] true])) old.
Definition add_ops (c : name) (old new : list centry) : list cop :=
  flat_map (fun e => (if same_ptr e old then [] else [mkco UAdd (e_m e) (e_o e) c [] false]) ++
                     (if same_txt e old then [] else [mkco UProp (e_m e) (e_o e) c (match e_g e with Some g => g | None => [] end) false])) new.
Definition diff_ops (c : name) (old new : list centry) : list cop := rem_ops c old new ++ add_ops c old new.
(** src/knot/catalog/catalog_update.c:369-392, src/knot/updates/zone-update.c:764-772: the whole zone replaced, and with
    no entries src/knot/catalog/catalog_update.c:394-414, the zone purged *)
Definition full_ops (c : name) (d : cdb) (new : list centry) : list cop :=
  flat_map (fun mv => if name_eqb (catz_of (snd mv)) c then [mkco URem (fst mv) (fst (fst (snd mv))) (catz_of (snd mv)) [] false] else []) d ++
  add_ops c [] new.
