(** The copy-on-write part of the qp-trie, src/contrib/qp-trie/trie.c:1168-1451, on a heap.

    Twig arrays and keys are objects of a heap, referred to by addresses, so that two roots can share
    them. A mark of an array is the flag in the first element of the array, as in the C code. The
    functions that only read the trie (lookup, ns_find_branch) are those of TrieModel, applied to the
    tree that the heap holds at the time of the call; touching anything that was freed is undefined.

    Simplifications. Addresses are never reused. Reallocating an array moves it to a new address, or
    (when shrinking) leaves it where it is. The callbacks of the application (mark_shared, cb) are
    not modelled: knot passes NULL everywhere (zone-tree.c:62, contents.c:497, apply.c:338-369). *)
From Verif Require Import Base TrieModel.

(** trie.c:82-85 node_t without TFLAG_COW: a leaf has the address of its key and the value, a branch
    has index, bitmap and the address of its twig array. *)
Inductive word := WLeaf (ka v : Z) | WBranch (i b aa : Z).
(** trie.c:82-85 node_t with TFLAG_COW of its word i *)
Record cell := mkc { c_cow : bool; c_w : word }.
(** A twig array; trie.c:54-57 tkey_t: the flag cow and the characters. *)
Inductive obj := OArr (cs : list cell) | OKey (cow : bool) (k : list Z).
(** The next address to be given out, and the live objects. *)
Record heap := mkh { h_next : Z; h_get : Z -> option obj }.
(** trie.c:87-91 struct trie *)
Record htrie := mkht { ht_root : cell; ht_weight : Z }.
(** trie.c:1246-1252 struct trie_cow *)
Record cow := mkcow { cw_old : htrie; cw_new : htrie }.

(** Writing an object *)
Definition h_set (h : heap) (a : Z) (o : option obj) : heap :=
  mkh (h_next h) (fun x => if x =? a then o else h_get h x).
(** mm_alloc: [al n] tells whether the allocation succeeds that would get the address n; None for NULL *)
Definition h_alloc (al : Z -> bool) (h : heap) (o : obj) : option (heap * Z) :=
  if al (h_next h) then Some (h_set (mkh (h_next h + 1) (h_get h)) (h_next h) (Some o), h_next h) else None.
(** mm_free *)
Definition h_free (h : heap) (a : Z) : res heap :=
  match h_get h a with Some _ => Ok (h_set h a None) | None => UB end.
(** Reading an array or a key *)
Definition h_arr (h : heap) (a : Z) : res (list cell) := match h_get h a with Some (OArr cs) => Ok cs | _ => UB end.
Definition h_key (h : heap) (a : Z) : res (bool * list Z) := match h_get h a with Some (OKey c k) => Ok (c, k) | _ => UB end.

(** The tree under a node, as the functions of TrieModel see it. *)
Fixpoint map_res {A B} (f : A -> res B) (l : list A) : res (list B) :=
  match l with [] => Ok [] | x :: l => let* y := f x in let* l := map_res f l in Ok (y :: l) end.
Fixpoint load (fuel : nat) (h : heap) (w : word) : res node :=
  match fuel with
  | O => OOF
  | S fuel =>
    match w with
    | WLeaf ka v => let* (_, k) := h_key h ka in Ok (Leaf k v)
    | WBranch i b aa =>
      let* cs := h_arr h aa in
      let* tw := map_res (fun c => load fuel h (c_w c)) cs in
      Ok (Branch i b tw)
    end
  end.
(** Bound for walks down (not in the C code) *)
Definition depth (h : heap) : nat := S (Z.to_nat (h_next h)).
Definition hload (h : heap) (t : htrie) : res trie :=
  if ht_weight t =? 0 then Ok (mkt empty_root 0) else
  let* r := load (depth h) h (c_w (ht_root t)) in Ok (mkt r (ht_weight t)).

(** trie.c:435-452 trie_get_try: the value that the result points to *)
Definition h_get_try (h : heap) (t : htrie) (key : list Z) : res (option Z) :=
  let* tr := hload h t in
  let* p := trie_get_try tr key in
  match p with None => Ok None | Some p => let* v := val_at (t_root tr) p in Ok (Some v) end.

(** trie.c:327-339 trie_create *)
Definition h_create : heap * htrie :=
  (mkh 1 (fun _ => None), mkht (mkc false (WBranch (TMAX_INDEX - 1) 0 0)) 0).

(** A pointer to a node: the root of the trie being changed, or an element of an array. *)
Inductive ptr := PRoot | PCell (aa j : Z).
(** *p *)
Definition rd (h : heap) (root : cell) (p : ptr) : res cell :=
  match p with
  | PRoot => Ok root
  | PCell a j => let* cs := h_arr h a in match zget cs j with Some c => Ok c | None => UB end
  end.
(** *p = c *)
Definition wr (h : heap) (root : cell) (p : ptr) (c : cell) : res (heap * cell) :=
  match p with
  | PRoot => Ok (h, c)
  | PCell a j =>
    let* cs := h_arr h a in
    match zget cs j with Some _ => Ok (h_set h a (Some (OArr (zset cs j c))), root) | None => UB end
  end.
(** Writing through the trie_val_t pointer of a leaf *)
Definition h_write (h : heap) (t : htrie) (p : ptr) (v : Z) : res (heap * htrie) :=
  let* c := rd h (ht_root t) p in
  match c_w c with
  | WLeaf ka _ => let* (h, root) := wr h (ht_root t) p (mkc (c_cow c) (WLeaf ka v)) in Ok (h, mkht root (ht_weight t))
  | WBranch _ _ _ => UB
  end.

(** The pointers on a node stack (trie.c:557-567): those of the nodes on a path *)
Fixpoint ptrs_down (h : heap) (w : word) (path : list Z) : res (list ptr) :=
  match path with
  | [] => Ok []
  | j :: path =>
    match w with
    | WLeaf _ _ => UB
    | WBranch _ _ aa =>
      let* c := rd h (mkc false w) (PCell aa j) in
      let* ps := ptrs_down h (c_w c) path in Ok (PCell aa j :: ps)
    end
  end.
Definition ptrs (h : heap) (root : cell) (path : list Z) : res (list ptr) :=
  let* ps := ptrs_down h (c_w root) path in Ok (PRoot :: ps).

(** trie.c:161-175 mkleaf; None for KNOT_ENOMEM *)
Definition h_mkleaf (al : Z -> bool) (h : heap) (key : list Z) : option (heap * word) :=
  let len := zlen key in
  if len >? Z.shiftl 1 KEYLENBITS then None else
  match h_alloc al h (OKey false (zfirstn (len mod 2 ^ KEYLENBITS) key)) with
  | Some (h, ka) => Some (h, WLeaf ka 0)
  | None => None
  end.

(** trie.c:1255-1258 cow_marked *)
Definition cow_marked (h : heap) (w : word) : res bool :=
  match w with
  | WLeaf _ _ => Ok false
  | WBranch _ _ aa => let* cs := h_arr h aa in match cs with c :: _ => Ok (c_cow c) | [] => UB end
  end.
(** trie.c:1261-1264 cow_key *)
Definition cow_key (h : heap) (w : word) : res bool :=
  match w with WBranch _ _ _ => Ok false | WLeaf ka _ => let* (c, _) := h_key h ka in Ok c end.
(** trie.c:1270, 1283: the flag of the first element *)
Definition set_mark (h : heap) (aa : Z) (f : bool) : res heap :=
  let* cs := h_arr h aa in
  match cs with c :: cs => Ok (h_set h aa (Some (OArr (mkc f (c_w c) :: cs)))) | [] => UB end.
(** trie.c:1267-1271 clear_cow *)
Definition clear_cow (h : heap) (w : word) : res heap :=
  match w with WLeaf _ _ => UB | WBranch _ _ aa => set_mark h aa false end.
(** trie.c:1279-1292 mark_cow *)
Definition mark_cow (h : heap) (w : word) : res heap :=
  match w with
  | WBranch _ _ aa => set_mark h aa true
  | WLeaf ka _ => let* (_, k) := h_key h ka in Ok (h_set h ka (Some (OKey true k)))
  end.
(** trie.c:1302-1303 the loop over the children; [n] are left, [ci] is the next one *)
Fixpoint mark_children (h : heap) (aa : Z) (ci : Z) (n : nat) : res heap :=
  match n with
  | O => Ok h
  | S n =>
    let* c := rd h (mkc false (WLeaf 0 0)) (PCell aa ci) in
    let* h := mark_cow h (c_w c) in
    mark_children h aa (ci + 1) n
  end.
(** trie.c:1295-1308 cow_pushdown_one: the heap and the new word of the node; None for KNOT_ENOMEM *)
Definition cow_pushdown_one (al : Z -> bool) (h : heap) (w : word) : res (option (heap * word)) :=
  match w with
  | WLeaf _ _ => UB
  | WBranch i b aa =>
    let* cc := branch_weight (Branch i b []) in
    match h_alloc al h (OArr []) with
    | None => Ok None
    | Some (h, nt) =>
      let* h := mark_children h aa 0 (Z.to_nat cc) in
      let* h := clear_cow h w in
      let* cs := h_arr h aa in
      if zlen cs <? cc then UB else
      Ok (Some (h_set h nt (Some (OArr (zfirstn cc cs))), WBranch i b nt))
    end
  end.
(** trie.c:1311-1343 cow_pushdown: the heap, the root, the stack and whether it succeeded. The arrays of
    the entry before, when it was pushed down, are [tw] = (old_twigs, new_twigs). *)
Fixpoint cow_pushdown (al : Z -> bool) (h : heap) (root : cell) (ps : list ptr) (tw : option (Z * Z))
  : res (heap * cell * list ptr * bool) :=
  match ps with
  | [] => Ok (h, root, [], true)
  | p :: ps =>
    let* p := match tw, p with
      | None, _ => Ok p
      | Some (o, n), PCell a j => if a =? o then Ok (PCell n j) else UB
      | Some _, PRoot => UB
      end in
    let* c := rd h root p in
    let* m := cow_marked h (c_w c) in
    if m then
      let* r := cow_pushdown_one al h (c_w c) in
      match r with
      | None => Ok (h, root, p :: ps, false)
      | Some (h, w) =>
        let* (h, root) := wr h root p (mkc (c_cow c) w) in
        let* tw := match c_w c, w with WBranch _ _ o, WBranch _ _ n => Ok (Some (o, n)) | _, _ => UB end in
        let* (h, root, ps, ok) := cow_pushdown al h root ps tw in
        Ok (h, root, p :: ps, ok)
      end
    else
      let* k := cow_key h (c_w c) in
      let* (h, root, ok) :=
        if k then
          match c_w c with
          | WBranch _ _ _ => UB
          | WLeaf ka v =>
            let* (_, ch) := h_key h ka in
            match h_mkleaf al h ch with
            | None => Ok (h, root, false)
            | Some (h, w) =>
              match w with
              | WBranch _ _ _ => UB
              | WLeaf ka' _ =>
                let* (h, root) := wr h root p (mkc false (WLeaf ka' v)) in
                let* (_, ch) := h_key h ka in
                Ok (h_set h ka (Some (OKey false ch)), root, true)
              end
            end
          end
        else Ok (h, root, true) in
      if negb ok then Ok (h, root, p :: ps, false) else
      let* (h, root, ps, ok) := cow_pushdown al h root ps None in
      Ok (h, root, p :: ps, ok)
  end.

(** trie.c:924-991 cow_get_ins: the heap, the trie and the pointer to the leaf of the value, None for
    NULL. [stk] tells which node stacks can be allocated; [cw] is cow != NULL: trie_get_ins
    (trie.c:993-996) or trie_get_cow (trie.c:1374-1377). *)
Definition cow_get_ins (al stk : Z -> bool) (cw : bool) (h : heap) (t : htrie) (key : list Z)
  : res (heap * htrie * option ptr) :=
  if ht_weight t =? 0 then
    match h_mkleaf al h key with
    | None => Ok (h, t, None)
    | Some (h, w) => Ok (h, mkht (mkc false w) (ht_weight t + 1), Some PRoot)
    end
  else
  let* tr := hload h t in
  match ns_find_branch (mka stk true true true) (ns_init tr) key with
  | Err _ => Ok (h, t, None)
  | UB => UB
  | OOF => OOF
  | Ok (ns, idiff, tbit, kbit) =>
    let* ps := ptrs h (ht_root t) (ns_path (ns_st ns)) in
    let* (h, root, ps, ok) := if cw then cow_pushdown al h (ht_root t) ps None else Ok (h, ht_root t, ps, true) in
    let t := mkht root (ht_weight t) in
    if negb ok then Ok (h, t, None) else
    let p := last ps PRoot in
    let* c := rd h root p in
    if idiff =? TMAX_INDEX then match c_w c with WLeaf _ _ => Ok (h, t, Some p) | _ => UB end else
    match h_mkleaf al h key with
    | None => Ok (h, t, None)
    | Some (h, leaf) =>
      let* lka := match leaf with WLeaf ka _ => Ok ka | _ => UB end in
      match (match c_w c with WBranch i b aa => if i =? idiff then Some (b, aa) else None | WLeaf _ _ => None end) with
      | Some (b, aa) =>
        let* hs := hastwig (Branch idiff b []) kbit in
        if hs then UB else
        let* s := twigoff (Branch idiff b []) kbit in
        let* m := branch_weight (Branch idiff b []) in
        let* cs := h_arr h aa in
        if zlen cs <? m then UB else
        let cs := zfirstn m cs in
        match h_alloc al h (OArr (zfirstn s cs ++ mkc false leaf :: zskipn s cs)) with
        | None => let* h := h_free h lka in Ok (h, t, None)
        | Some (h, nt) =>
          let* h := h_free h aa in
          let* _ := mkbranch idiff (Z.lor b kbit) [] in
          let* (h, root) := wr h root p (mkc false (WBranch idiff (Z.lor b kbit) nt)) in
          Ok (h, mkht root (ht_weight t + 1), Some (PCell nt s))
        end
      | None =>
        match h_alloc al h (OArr []) with
        | None => let* h := h_free h lka in Ok (h, t, None)
        | Some (h, nt) =>
          let* _ := mkbranch idiff (Z.lor tbit kbit) [] in
          let* (h, root) := wr h root p (mkc false (WBranch idiff (Z.lor tbit kbit) nt)) in
          let* i := twigoff (Branch idiff (Z.lor tbit kbit) []) tbit in
          let* j := twigoff (Branch idiff (Z.lor tbit kbit) []) kbit in
          let g := mkc false (WLeaf 0 0) in
          let h := h_set h nt (Some (OArr (zset (zset [g; g] i c) j (mkc false leaf)))) in
          Ok (h, mkht root (ht_weight t + 1), Some (PCell nt j))
        end
      end
    end
  end.

(** trie.c:495-527 del_found: [tp] points to the leaf, [pp] to its parent. [al] tells whether the
    shrunk array is moved. *)
Definition h_del_found (al : Z -> bool) (h : heap) (t : htrie) (tp : ptr) (pp : option ptr) (b : Z)
  : res (heap * htrie * Z) :=
  let root := ht_root t in
  let* c := rd h root tp in
  match c_w c with
  | WBranch _ _ _ => UB
  | WLeaf ka v =>
    let* (kc, _) := h_key h ka in
    if (kc : bool) then UB else
    let* h := h_free h ka in
    let w := ht_weight t - 1 in
    match pp with
    | None => if w =? 0 then Ok (h, mkht (mkc false (WBranch (TMAX_INDEX - 1) 0 0)) w, v) else UB
    | Some pp =>
      let* p := rd h root pp in
      match c_w p with
      | WLeaf _ _ => UB
      | WBranch i bmp aa =>
        let* ci := match tp with PCell a ci => if a =? aa then Ok ci else UB | PRoot => UB end in
        let* cc := branch_weight (Branch i bmp []) in
        if negb ((0 <=? ci) && (ci <? cc)) then UB else
        let* cs := h_arr h aa in
        if cc =? 2 then
          let* o := match zget cs (1 - ci) with Some o => Ok o | None => UB end in
          let* (h, root) := wr h root pp o in
          let* h := h_free h aa in
          Ok (h, mkht root w, v)
        else
          let cs := zfirstn ci cs ++ zskipn (ci + 1) cs in
          match h_alloc al h (OArr cs) with
          | Some (h, nt) =>
            let* h := h_free h aa in
            let* (h, root) := wr h root pp (mkc (c_cow p) (WBranch i (Z.land bmp (Z.lnot b)) nt)) in
            Ok (h, mkht root w, v)
          | None =>
            let h := h_set h aa (Some (OArr cs)) in
            let* (h, root) := wr h root pp (mkc (c_cow p) (WBranch i (Z.land bmp (Z.lnot b)) aa)) in
            Ok (h, mkht root w, v)
          end
      end
    end
  end.

(** The two topmost entries of a stack of pointers *)
Definition top2 (ps : list ptr) : res (ptr * option ptr) :=
  match rev ps with
  | [] => UB
  | [t] => Ok (t, None)
  | t :: p :: _ => Ok (t, Some p)
  end.
(** trie.c:529-550 trie_del *)
Definition h_del (al : Z -> bool) (h : heap) (t : htrie) (key : list Z) : res (heap * htrie * Z) :=
  if ht_weight t =? 0 then Err KNOT_ENOENT else
  let* tr := hload h t in
  let* r := del_loop (height (t_root tr)) [(0, t_root tr)] 0 key in
  match r with
  | None => Err KNOT_ENOENT
  | Some (st, b) =>
    match st with
    | [] => UB
    | (_, l) :: _ =>
      let* lkey := tkey l in
      if negb (key_cmp key lkey =? 0) then Err KNOT_ENOENT else
      let* ps := ptrs h (ht_root t) (ns_path st) in
      let* (tp, pp) := top2 ps in
      h_del_found al h t tp pp b
    end
  end.

(** trie.c:1345-1366 trie_cow; [ok]: the allocations succeed *)
Definition trie_cow (ok : bool) (h : heap) (old : htrie) : res (heap * option cow) :=
  if negb ok then Ok (h, None) else
  let* h := if negb (ht_weight old =? 0) then mark_cow h (c_w (ht_root old)) else Ok h in
  Ok (h, Some (mkcow old old)).
(** trie.c:1368-1372 trie_cow_new *)
Definition trie_cow_new (c : cow) : htrie := cw_new c.
(** trie.c:1374-1377 trie_get_cow *)
Definition trie_get_cow (al stk : Z -> bool) (h : heap) (c : cow) (key : list Z) : res (heap * cow * option ptr) :=
  let* (h, t, p) := cow_get_ins al stk true h (cw_new c) key in
  Ok (h, mkcow (cw_old c) t, p).
(** Storing a value through the result of trie_get_cow *)
Definition cow_write (h : heap) (c : cow) (p : ptr) (v : Z) : res (heap * cow) :=
  let* (h, t) := h_write h (cw_new c) p v in Ok (h, mkcow (cw_old c) t).
(** trie.c:1379-1403 trie_del_cow: None in place of a value when the code was an error; the heap is
    returned also with an error. *)
Definition trie_del_cow (al stk : Z -> bool) (h : heap) (c : cow) (key : list Z) : res (heap * cow * (Z + Z)) :=
  let t := cw_new c in
  if ht_weight t =? 0 then Ok (h, c, inr KNOT_ENOENT) else
  let* tr := hload h t in
  match ns_find_branch (mka stk true true true) (ns_init tr) key with
  | Err e => Ok (h, c, inr e)
  | UB => UB
  | OOF => OOF
  | Ok (ns, idiff, tbit, kbit) =>
    if negb (idiff =? TMAX_INDEX) then Ok (h, c, inr KNOT_ENOENT) else
    let* ps := ptrs h (ht_root t) (ns_path (ns_st ns)) in
    let* (h, root, ps, ok) := cow_pushdown al h (ht_root t) ps None in
    let t := mkht root (ht_weight t) in
    if negb ok then Ok (h, mkcow (cw_old c) t, inr KNOT_ENOMEM) else
    let* (tp, pp) := top2 ps in
    let* b := match pp with
      | None => Ok 0
      | Some pp =>
        let* p := rd h root pp in
        match c_w p with WBranch i _ _ => Ok (keybit i key) | WLeaf _ _ => UB end
      end in
    let* (h, t, v) := h_del_found al h t tp pp b in
    Ok (h, mkcow (cw_old c) t, inl v)
  end.

(** trie.c:1406-1433 cow_cleanup; the second function is the loop over the children *)
Fixpoint cow_cleanup (fuel : nat) (h : heap) (w : word) : res heap :=
  match fuel with
  | O => OOF
  | S fuel =>
    let* m := cow_marked h w in
    if m then clear_cow h w else
    match w with
    | WBranch i b aa =>
      let* cc := branch_weight (Branch i b []) in
      let fix go (h : heap) (ci : Z) (n : nat) : res heap :=
        match n with
        | O => Ok h
        | S n =>
          let* c := rd h (mkc false w) (PCell aa ci) in
          let* h := cow_cleanup fuel h (c_w c) in
          go h (ci + 1) n
        end in
      let* h := go h 0 (Z.to_nat cc) in
      h_free h aa
    | WLeaf ka v =>
      let* (kc, k) := h_key h ka in
      if (kc : bool) then Ok (h_set h ka (Some (OKey false k))) else h_free h ka
    end
  end.
(** trie.c:1435-1443 trie_cow_commit *)
Definition trie_cow_commit (h : heap) (c : cow) : res (heap * htrie) :=
  let* h := if negb (ht_weight (cw_old c) =? 0) then cow_cleanup (depth h) h (c_w (ht_root (cw_old c))) else Ok h in
  Ok (h, cw_new c).
(** trie.c:1445-1453 trie_cow_rollback *)
Definition trie_cow_rollback (h : heap) (c : cow) : res (heap * htrie) :=
  let* h := if negb (ht_weight (cw_new c) =? 0) then cow_cleanup (depth h) h (c_w (ht_root (cw_new c))) else Ok h in
  Ok (h, cw_old c).
