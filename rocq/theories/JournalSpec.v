(** What a journal is for: from the last zone file, or from the zone stored in the journal, it leads to the last
    version of the zone. Stated about what is handed over to the journal and what is read back from it. *)
From Verif Require Import Base SerialModel JournalModel.

(** A history, as its user knows it: the serial of the zone file, the changes inserted since it was written, the
    zone inserted to the journal with the changes since then, the last serial of the journal if it holds anything. *)
Record hist : Type := mkh {
  h_file : Z; h_since : list change; h_zone : option (Z * Z * list change); h_last : option Z }.
Definition hist0 : hist := mkh 0 [] None None.

(** What a successful operation means. A change which doesn't start from the last serial replaces the zone.
    An "extra" changeset starts from the zone file, which has been edited. *)
Definition update (h : hist) (o : op) : hist :=
  match o with
  | OZone serial id _ _ _ => mkh (h_file h) (h_since h) (Some (serial, id, [])) (Some serial)
  | OInsert _ i (Some x) => mkh (c_from (i_ch x)) [i_ch x] None (Some (c_to (i_ch i)))
  | OInsert _ i None =>
      let ch := i_ch i in
      match h_last h with
      | Some last =>
          if last =? c_from ch then
            mkh (h_file h) (h_since h ++ [ch])
                (match h_zone h with Some (s, id, l) => Some (s, id, l ++ [ch]) | None => None end) (Some (c_to ch))
          else mkh (c_from ch) [ch] None (Some (c_to ch))
      | None => mkh (c_from ch) [ch] None (Some (c_to ch))
      end
  | OFlushed => match h_last h with Some last => mkh last [] (h_zone h) (Some last) | None => h end
  | OScrape _ => mkh 0 [] None None
  end.

(** The zone can be loaded: what is read from the journal is exactly what was inserted, in that order. *)
Definition loadable (h : hist) (d : db) : Prop :=
  match h_last h with
  | None => (forall s, read_from d s = Err KNOT_ENOENT) /\ read_zone d = Err KNOT_ENOENT
  | Some last =>
      match h_zone h with
      | Some (s, id, l) =>
          exists z ls, read_zone d = Ok (z, ls, KNOT_EOK) /\ z_serial z = s /\ z_id z = id /\
            s_data (z_st z) ++ all_data ls = l
      | None =>
          read_zone d = Err KNOT_ENOENT /\
          ((h_file h = last /\ h_since h = [] /\ read_from d (h_file h) = Err KNOT_ENOENT) \/
           exists ls, read_from d (h_file h) = Ok (ls, KNOT_EOK) /\ all_data ls = h_since h)
      end
  end.

(** Changes one after another from a serial to a serial. *)
Fixpoint leads (a : Z) (l : list change) (b : Z) : Prop :=
  match l with
  | [] => a = b
  | c :: r => c_from c = a /\ leads (c_to c) r b
  end.
(** Changesets read: each ends with the serial the next one starts with. *)
Fixpoint contiguous (a : Z) (l : list stored) (b : Z) : Prop :=
  match l with
  | [] => a = b
  | s :: r => leads a (s_data s) (s_to s) /\ s_data s <> [] /\ contiguous (s_to s) r b
  end.

(** Changesets in the database, each under the serial the previous one ends with. *)
Fixpoint follows (d : db) (a : Z) (l : list stored) : Prop :=
  match l with
  | [] => True
  | s :: r => find_ch a (d_chs d) = Some s /\ s_ok s = true /\ follows d (s_to s) r
  end.

(** When the journal keeps its promises, see the findings: *)
Definition stores (d : db) (k : Z) : Prop := find_ch k (d_chs d) <> None.
(** - there is no need to make space *)
Definition roomy (d : db) (c : conf) (i : input) : Prop :=
  cf_occ c + i_size i <= cf_usage c /\ m_count (md_of d) < cf_depth c /\ ~ stores d (c_to (i_ch i)).
Definition sane (c : conf) (i : input) (extra : option input) : Prop :=
  1 <= cf_depth c < 2 ^ 63 /\ 0 <= cf_occ c < 2 ^ 63 /\ 0 < cf_usage c < 2 ^ 63 /\ 0 < cf_msize c /\
  0 <= i_size i /\ 0 < i_ssize i /\ 0 <= c_from (i_ch i) < 2 ^ 32 /\ 0 <= c_to (i_ch i) < 2 ^ 32 /\
  match extra with
  | Some x => 0 <= i_size x /\ 0 < i_ssize x /\ 0 <= c_from (i_ch x) < 2 ^ 32 /\ 0 <= c_to (i_ch x) < 2 ^ 32
  | None => True
  end.
Definition allowed (h : hist) (d : db) (o : op) : Prop :=
  match o with
  | OZone serial _ _ ssize _ => 0 < ssize
  | OInsert c i None =>
      let m := md_of d in
      sane c i None /\
      (roomy d c i \/
       (* a replacement of the zone doesn't meet the zone in the journal or a merged changeset, even a new one *)
       ((h_last h = Some (c_from (i_ch i)) \/ h_last h = None \/ (cf_flush c = true /\ h_zone h = None /\ m_mv m = false)) /\
       (* the serial doesn't come back to a stored one *)
       (if cf_flush c then m_mv m = true -> c_to (i_ch i) <> m_merged m else ~ stores d (c_to (i_ch i))) /\
       (* the merged changeset starts from the zone file when flushing is disabled, and doesn't when enabled *)
       (m_mv m = true -> if cf_flush c then h_file h <> m_merged m else h_file h = m_merged m)))
  | OInsert c i (Some x) =>
      sane c i (Some x) /\ ~ (stores d (c_from (i_ch x)) /\ (m_mv (md_of d) = true -> c_from (i_ch x) <> m_merged (md_of d)))
  | OFlushed => True
  | OScrape _ => True
  end.

(** The histories: operations with any failure of the database and of the reading, without the failure of memory
    allocation (see the findings). The server continues, or crashes and starts again, with what was committed. *)
Inductive reach : hist -> db -> Prop :=
| reach_0 : reach hist0 db0
| reach_op : forall h d o fl rd l ret, reach h d -> allowed h d o -> ~ In FMem fl -> exec fl rd d o = Ok (l, ret) ->
    reach (if ret =? KNOT_EOK then update h o else h) (last l d).
