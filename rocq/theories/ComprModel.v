(** Writing of records into a message: src/libknot/packet/rrset-wire.c:35-525,
    src/libknot/packet/compr.h.

    The buffer of the message is a list of bytes of a fixed length and a pointer into it is an offset;
    a write outside of it is undefined. Since a failed write leaves its traces in the buffer and in the
    compression context, the state is kept with the error. *)
From Verif Require Import Base DnameModel WireModel RrwireModel.

(** compr.h:66-88: the hints of the current RRset and the suffix *)
Record compr := mkcompr { c_hints : list Z; c_pos : Z; c_labels : Z }.

(** The buffer, the destination with the space behind it, and the context or NULL *)
Record st := mkst { s_mem : list Z; s_dst : Z; s_avail : Z; s_compr : option compr }.

Inductive out (A : Type) : Type :=
| Done (a : A) (s : st)
| Fail (e : Z) (s : st)
| Crash                    (* undefined behaviour or a failed assertion *)
| Loop.                    (* out of fuel *)
Arguments Done {A} a s. Arguments Fail {A} e s. Arguments Crash {A}. Arguments Loop {A}.

Definition bind {A B} (m : st -> out A) (f : A -> st -> out B) (s : st) : out B :=
  match m s with
  | Done a s => f a s
  | Fail e s => Fail e s
  | Crash => Crash
  | Loop => Loop
  end.
Notation "'do*' x ':=' m 'in' k" := (bind m (fun x => k))
  (at level 200, x pattern, m at level 100, k at level 200, right associativity).
Definition ret {A} (a : A) (s : st) : out A := Done a s.
Definition fail {A} (e : Z) (s : st) : out A := Fail e s.
Definition lift {A} (r : res A) (s : st) : out A :=
  match r with Ok a => Done a s | Err e => Fail e s | UB => Crash | OOF => Loop end.
Definition get (s : st) : out st := Done s s.

Definition with_mem (s : st) (m : list Z) : st := mkst m (s_dst s) (s_avail s) (s_compr s).
Definition with_compr (s : st) (c : option compr) : st := mkst (s_mem s) (s_dst s) (s_avail s) c.

(** bytes of the buffer from [off] on overwritten *)
Definition overwrite (m : list Z) (off : Z) (l : list Z) : list Z :=
  zfirstn off m ++ l ++ zskipn (off + zlen l) m.
Definition put (off : Z) (l : list Z) (s : st) : out unit :=
  if (off <? 0) || (off + zlen l >? zlen (s_mem s)) then Crash
  else Done tt (with_mem s (overwrite (s_mem s) off l)).
(** advance the destination *)
Definition move (n : Z) (s : st) : out unit := Done tt (mkst (s_mem s) (s_dst s + n) (s_avail s - n) (s_compr s)).

(** rrset-wire.c:35-38 *)
Definition dname_max (avail : Z) : Z := Z.min avail KNOT_DNAME_MAXLEN.

(** rrset-wire.c:49-65; the first label is at the start of [d], the second one at [p] in the buffer.
    The whole labels are read, the loop stops at the first difference. *)
Definition wl_equal (m : list Z) (d : list Z) (p : Z) : res bool :=
  let* n1 := rd0 d in
  let* n2 := rd m p in
  if negb (n1 =? n2) then Ok false else
  let* l1 := take d (n1 + 1) in
  let* l2 := rdn m p (n1 + 1) in
  Ok (bytes_eqb (tl l1) (map tolower (tl l2))).

(** rrset-wire.c:71-89 *)
Fixpoint dname_equal_wire_loop (fuel : nat) (m : list Z) (d1 : list Z) (d2 : Z) : res bool :=
  match fuel with
  | O => OOF
  | S fuel =>
    let* c1 := rd0 d1 in
    let* c2 := rd m d2 in
    if negb (c1 =? 0) || negb (c2 =? 0) then
      let* e := wl_equal m d1 d2 in
      if negb e then Ok false else
      let* d1 := next_label d1 in
      let* d2 := wire_next_label m d2 in
      dname_equal_wire_loop fuel m d1 d2
    else Ok true
  end.
Definition dname_equal_wire (m : list Z) (d1 : list Z) (d2 : Z) : res bool :=
  let* d2 := seek_label m d2 in
  dname_equal_wire_loop (S (length d1)) m d1 d2.

(** src/libknot/dname.c:744-762 with pkt != NULL; a name has at most 128 labels *)
Fixpoint wire_labels_loop (fuel : nat) (m : list Z) (p : Z) (count : Z) : res Z :=
  match fuel with
  | O => OOF
  | S fuel =>
    let* c := rd m p in
    if c =? 0 then Ok count else
    let* p := wire_next_label m p in
    wire_labels_loop fuel m p (count + 1)
  end.
Definition wire_labels (m : list Z) (p : Z) : res Z := wire_labels_loop 256 m p 0.

(** compr.h:81-99; KNOT_COMPR_HINT_COUNT = 16, KNOT_WIRE_PTR_MAX = 0x3FFF *)
Definition HINT_COUNT : Z := 16.
Definition PTR_MAX : Z := 16383.
Definition compr_hint (hints : list Z) (id : Z) : res Z :=
  if id <? HINT_COUNT then rd hints id else Ok 0.
Definition compr_hint_set (hints : list Z) (id val len : Z) : list Z :=
  if (id <? HINT_COUNT) && (val + len <? PTR_MAX) then overwrite hints id [val] else hints.

(** rrset-wire.c:91-98 *)
Definition compr_get_ptr (id : Z) : st -> out Z :=
  do* s := get in
  match s_compr s with
  | None => ret 0
  | Some c => lift (compr_hint (c_hints c) id)
  end.

(** rrset-wire.c:100-116 *)
Definition compr_set_ptr (id written_at written_size : Z) : st -> out unit :=
  do* s := get in
  match s_compr s with
  | None => ret tt
  | Some c =>
    do* b := lift (rd (s_mem s) written_at) in
    do* offset := (if is_pointer b then
                     do* lo := lift (rd (s_mem s) (written_at + 1)) in ret (get_pointer b lo)
                   else ret (u16 written_at)) in
    fun s => Done tt (with_compr s (Some (mkcompr (compr_hint_set (c_hints c) id offset written_size) (c_pos c) (c_labels c))))
  end.

(** src/libknot/packet/wire.h:1014-1020; both assertions *)
Definition put_pointer (pos ptr : Z) : st -> out unit :=
  if ptr >=? pos then fun _ => Crash else
  if ptr >? 16383 then fun _ => Crash else
  put pos [Z.lor (ptr / 256) 192; ptr mod 256].

(** rrset-wire.c:166-173, the macro WRITE_LABEL; returns the new "written" *)
Definition write_label (dst written : Z) (l : list Z) (max : Z) : st -> out Z :=
  if written + zlen l >? max then fail KNOT_ESPACE else
  do* _ := put (dst + written) l in
  ret (written + zlen l).

(** src/libknot/dname.c:174-187 *)
Definition dname_to_wire (dst : Z) (d : list Z) (maxlen : Z) : st -> out Z :=
  do* len := lift (dname_size d) in
  if len >? maxlen then fail KNOT_ESPACE else
  do* l := lift (take d len) in
  do* _ := put dst l in
  ret len.

(** rrset-wire.c:203-207 *)
Fixpoint skip_suffix (n : nat) (suffix : Z) : st -> out Z :=
  match n with
  | O => ret suffix
  | S n =>
    do* s := get in
    do* suffix := lift (wire_next_label (s_mem s) suffix) in
    skip_suffix n suffix
  end.

(** rrset-wire.c:212-216 *)
Fixpoint lead_labels (n : nat) (dst max : Z) (dname : list Z) (written : Z) : st -> out (list Z * Z) :=
  match n with
  | O => ret (dname, written)
  | S n =>
    do* c := lift (rd0 dname) in
    do* l := lift (take dname (c + 1)) in
    do* written := write_label dst written l max in
    do* dname := lift (next_label dname) in
    lead_labels n dst max dname written
  end.

(** rrset-wire.c:218-242; returns dname, match_begin, compr_ptr and written *)
Fixpoint match_loop (fuel : nat) (dst max : Z) (dname : list Z) (suffix : Z) (match_begin : list Z)
  (compr_ptr written : Z) : st -> out (list Z * list Z * Z * Z) :=
  match fuel with
  | O => fun _ => Loop
  | S fuel =>
    do* c := lift (rd0 dname) in
    if c =? 0 then ret (dname, match_begin, compr_ptr, written) else
    do* next_dname := lift (next_label dname) in
    do* s := get in
    do* next_suffix := lift (wire_next_label (s_mem s) suffix) in
    do* e := lift (wl_equal (s_mem s) dname suffix) in
    if negb e then
      let mismatch_len := u16 (zlen match_begin - zlen dname + (c + 1)) in
      do* l := lift (take match_begin mismatch_len) in
      do* written := write_label dst written l max in
      match_loop fuel dst max next_dname next_suffix next_dname next_suffix written
    else match_loop fuel dst max next_dname next_suffix match_begin compr_ptr written
  end.

(** rrset-wire.c:186-266; [use]: the context is passed (put_compr != NULL if compr != NULL). Returns
    the number of bytes written. *)
Definition compr_put_dname (dname : list Z) (dst max : Z) (use : bool) : st -> out Z :=
  do* s := get in
  do* c0 := lift (rd0 dname) in
  match (if use then s_compr s else None) with
  | None => dname_to_wire dst dname max
  | Some c =>
    if c0 =? 0 then dname_to_wire dst dname max else
    do* name_labels := lift (dname_labels dname) in
    if name_labels <=? 0 then fun _ => Crash else
    do* suffix := skip_suffix (Z.to_nat (c_labels c - name_labels)) (c_pos c) in
    let suffix_labels := Z.min (c_labels c) name_labels in
    do* (dname, written) := lead_labels (Z.to_nat (name_labels - suffix_labels)) dst max dname 0 in
    do* (r, written) := match_loop (S (length dname)) dst max dname suffix dname suffix written in
    let '(dname, match_begin, compr_ptr) := r in
    do* written :=
      if zlen match_begin =? zlen dname then
        do* l := lift (take dname 1) in write_label dst written l max
      else if written + 2 >? max then fail KNOT_ESPACE
      else do* _ := put_pointer (dst + written) compr_ptr in ret (written + 2) in
    if dst >=? 65535 then fun _ => Crash else
    do* _ :=
      if (written >? 2) && (dst + written <? PTR_MAX) then
        fun s => Done tt (with_compr s (Some (mkcompr (c_hints c) dst (u8 name_labels))))
      else ret tt in
    ret written
  end.

(** rrset-wire.c:277-324 *)
Definition write_owner (owner : list Z) : st -> out unit :=
  do* c0 := lift (rd0 owner) in
  do* owner_pointer := if negb (c0 =? 0) then compr_get_ptr 0 else ret 0 in
  do* s := get in
  if owner_pointer >? 0 then
    if 2 >? s_avail s then fail KNOT_ESPACE else
    do* _ := put_pointer (s_dst s) owner_pointer in
    move 2
  else
    do* eq :=
      match s_compr s with
      | Some c =>
        if negb (c_pos c =? 0) && negb (c0 =? 0) then lift (dname_equal_wire (s_mem s) owner (c_pos c))
        else ret false
      | None => ret false
      end in
    match s_compr s, eq with
    | Some c, true =>
      if 2 >? s_avail s then fail KNOT_ESPACE else
      do* _ := put_pointer (s_dst s) (c_pos c) in
      do* n := lift (dname_size owner) in
      do* _ := compr_set_ptr 0 (c_pos c) (u16 n) in
      move 2
    | _, _ =>
      do* _ :=
        match s_compr s with
        | Some c =>
          do* n := lift (wire_labels (s_mem s) 12) in
          fun s => Done tt (with_compr s (Some (mkcompr (c_hints c) 12 (u8 n))))
        | None => ret tt
        end in
      do* written := compr_put_dname owner (s_dst s) (dname_max (s_avail s)) true in
      do* _ := compr_set_ptr 0 (s_dst s) (u16 written) in
      move written
    end.

(** src/contrib/wire_ctx.h:113-131 and its users: a number in big-endian order *)
Definition write_be (n v : Z) : st -> out unit :=
  do* s := get in
  if s_avail s <? n then fail KNOT_ESPACE else
  do* _ := put (s_dst s) (be (Z.to_nat n) v) in
  move n.

(** src/libknot/rrtype/rrsig.h:51-56, src/libknot/rrtype/soa.h:43-92 *)
Definition rrsig_original_ttl (rdata : list Z) : res Z :=
  let* l := rdn rdata 4 4 in Ok (unbe l).
Definition soa_minimum (rdata : list Z) : res Z :=
  let* n1 := dname_size rdata in
  let* mailbox := advance rdata n1 in
  let* n2 := dname_size mailbox in
  let* l := rdn rdata (n1 + n2 + 16) 4 in Ok (unbe l).

(** rrset-wire.c:326-358; the flags KNOT_PF_ORIGTTL and KNOT_PF_SOAMINTTL. The first failed write
    disables the following ones, its error is returned at the end. *)
Definition write_fixed_header (type rclass ttl : Z) (rdata : list Z) (origttl soaminttl : bool) : st -> out unit :=
  do* ttl :=
    if origttl && (type =? 46) then lift (rrsig_original_ttl rdata)
    else if soaminttl && (type =? 6) then do* m := lift (soa_minimum rdata) in ret (Z.min m ttl)
    else ret ttl in
  do* _ := write_be 2 type in
  do* _ := write_be 2 rclass in
  write_be 4 ttl.

(** rrset-wire.c:118-146; returns the rest of the source *)
Definition write_fixed (src : list Z) (size : Z) : st -> out (list Z) :=
  do* s := get in
  if size >? zlen src then fail KNOT_EMALF else
  if size >? s_avail s then fail KNOT_ESPACE else
  do* l := lift (take src size) in
  do* rest := lift (advance src size) in
  do* _ := put (s_dst s) l in
  do* _ := move size in
  ret rest.

(** rrset-wire.c:148-163 *)
Definition write_naptr (src : list Z) : st -> out (list Z) :=
  do* n := lift (naptr_header_size src) in
  write_fixed src n.

(** rrset-wire.c:360-393 *)
Definition compress_rdata_dname (src : list Z) (use : bool) (hint : Z) : st -> out (list Z) :=
  do* n := lift (dname_size src) in
  do* s := get in
  do* written := compr_put_dname src (s_dst s) (dname_max (s_avail s)) use in
  do* h := compr_get_ptr hint in
  do* _ := if h =? 0 then compr_set_ptr hint (s_dst s) (u16 written) else ret tt in
  do* _ := move written in
  lift (advance src n).

(** rrset-wire.c:395-430 *)
Fixpoint traverse_write (bl : list block) (src : list Z) (hint : Z) : st -> out (list Z) :=
  match bl with
  | [] => ret src
  | b :: bl =>
    do* src :=
      match b with
      | BCompr => compress_rdata_dname src true hint
      | BDecompr | BName => compress_rdata_dname src false hint
      | BNaptr => write_naptr src
      | BRem => write_fixed src (zlen src)
      | BFixed n => write_fixed src n
      end in
    traverse_write bl src hint
  end.

(** rrset-wire.c:432-476 *)
Definition write_rdata (type : Z) (index : Z) (rdata : list Z) : st -> out unit :=
  do* s := get in
  if 2 >? s_avail s then fail KNOT_ESPACE else
  let wire_rdlength := s_dst s in
  do* _ := move 2 in
  let wire_rdata_begin := wire_rdlength + 2 in
  do* src := (if zlen rdata >? 0 then traverse_write (snd (get_desc type)) rdata (1 + index) else ret rdata) in
  if zlen src >? 0 then fail KNOT_EMALF else
  do* s := get in
  put wire_rdlength (be 2 (u16 (s_dst s - wire_rdata_begin))).

(** rrset-wire.c:478-493 *)
Definition write_rr (owner : list Z) (type rclass ttl : Z) (index : Z) (rdata : list Z) (origttl soaminttl : bool) : st -> out unit :=
  do* _ := write_owner owner in
  do* _ := write_fixed_header type rclass ttl rdata origttl soaminttl in
  write_rdata type index rdata.

(** An RRset; the records in the order of the set *)
Record rrset := mkrrset { rs_owner : list Z; rs_type : Z; rs_class : Z; rs_ttl : Z; rs_rdata : list (list Z) }.

(** the record with the given index; a pointer to the records is an index *)
Definition rdata_at (rrs : list (list Z)) (i : Z) : res (list Z) :=
  if i <? 0 then UB else match nth_error rrs (Z.to_nat i) with Some d => Ok d | None => UB end.

(** rrset-wire.c:515-522: [n] iterations from [i]; [rdata] is an index *)
Fixpoint write_loop (n : nat) (rs : rrset) (i rdata : Z) (origttl soaminttl : bool) : st -> out unit :=
  match n with
  | O => ret tt
  | S n =>
    let count := zlen (rs_rdata rs) in
    let pos := if i <? count then i else i - count in
    let rdata := if negb (pos =? 0) then rdata + 1 else 0 in
    do* d := lift (rdata_at (rs_rdata rs) rdata) in
    do* _ := write_rr (rs_owner rs) (rs_type rs) (rs_class rs) (rs_ttl rs) pos d origttl soaminttl in
    write_loop n rs (i + 1) rdata origttl soaminttl
  end.

(** rrset-wire.c:496-525: knot_rrset_to_wire_extra. The number of records is a uint16_t. The destination is part of
    the state; returns the number of bytes. *)
Definition to_wire_extra (rs : rrset) (rotate : Z) (origttl soaminttl : bool) : st -> out Z :=
  let count := zlen (rs_rdata rs) in
  if count =? 0 then ret 0 else
  let rotate := if negb (rotate =? 0) then rotate mod count else rotate in
  let rdata := if rotate >? 1 then rotate - 1 else 0 in
  do* s := get in
  do* _ := write_loop (length (rs_rdata rs)) rs rotate rdata origttl soaminttl in
  do* s' := get in
  ret (s_dst s' - s_dst s).
