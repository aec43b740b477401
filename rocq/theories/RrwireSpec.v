(** What a record in a message is (RFC 1035 section 3.2.1 and 4.1.3), independently of the code. *)
From Verif Require Import Base DnameSpec.

(** RDATA is made of pieces: octets and names. *)
Inductive piece := PData (l : list Z) | PName (ls : list label).

(** the uncompressed form *)
Fixpoint flat (ps : list piece) : list Z :=
  match ps with
  | [] => []
  | PData l :: ps => l ++ flat ps
  | PName ls :: ps => wire ls ++ flat ps
  end.

(** What RDATA consist of: a number of octets, a domain name, the fixed part of NAPTR (four octets
    and three character strings), and octets up to the end. *)
Inductive field := Octets (n : Z) | Name | Naptr | Rest.

(** <character-string>, RFC 1035 section 3.3 *)
Definition char_string (s l : list Z) : Prop := zlen s <= 255 /\ l = zlen s :: s.

(** The pieces have the given layout. *)
Inductive lay_out : list field -> list piece -> Prop :=
| lo_nil : lay_out [] []
| lo_fixed : forall n fl l ps, zlen l = n -> bytes l -> lay_out fl ps ->
    lay_out (Octets n :: fl) (PData l :: ps)
| lo_name : forall fl ls ps, legal_name ls -> lay_out fl ps -> lay_out (Name :: fl) (PName ls :: ps)
| lo_naptr : forall fl f s1 s2 s3 l1 l2 l3 ps, zlen f = 4 -> bytes (f ++ l1 ++ l2 ++ l3) ->
    char_string s1 l1 -> char_string s2 l2 -> char_string s3 l3 -> lay_out fl ps ->
    lay_out (Naptr :: fl) (PData (f ++ l1 ++ l2 ++ l3) :: ps)
| lo_rest : forall l, bytes l -> lay_out [Rest] [PData l].

(** The layouts of the types which have a fixed size or domain names (RFC 1035, 1183, 2163, 2230,
    2535, 2782, 2845, 2930, 3403, 3596, 1876, 4034, 6672, 6742, 7043); other types are opaque. *)
Definition rfc_layout (t : Z) : list field :=
  if t =? 1 then [Octets 4] else                          (* A *)
  if existsb (Z.eqb t) [2; 3; 4; 5; 7; 8; 9; 12; 39] then [Name] else (* NS MD MF CNAME MB MG MR PTR DNAME *)
  if t =? 6 then [Name; Name; Octets 20] else             (* SOA *)
  if existsb (Z.eqb t) [14; 17] then [Name; Name] else    (* MINFO RP *)
  if existsb (Z.eqb t) [15; 18; 21; 36; 107] then [Octets 2; Name] else (* MX AFSDB RT KX LP *)
  if existsb (Z.eqb t) [24; 46] then [Octets 18; Name; Rest] else (* SIG RRSIG *)
  if t =? 26 then [Octets 2; Name; Name] else             (* PX *)
  if existsb (Z.eqb t) [28; 29] then [Octets 16] else     (* AAAA LOC *)
  if existsb (Z.eqb t) [30; 47; 249; 250] then [Name; Rest] else (* NXT NSEC TKEY TSIG *)
  if t =? 33 then [Octets 6; Name] else                   (* SRV *)
  if t =? 35 then [Naptr; Name] else                      (* NAPTR *)
  if existsb (Z.eqb t) [104; 106] then [Octets 10] else   (* NID L64 *)
  if existsb (Z.eqb t) [105; 108] then [Octets 6] else    (* L32 EUI48 *)
  if t =? 109 then [Octets 8] else                        (* EUI64 *)
  if t =? 128 then [] else                                (* NXNAME *)
  [Rest].

(** Types which the server knows: those above and some opaque ones, HINFO NULL TXT KEY CERT OPT APL DS
    SSHFP IPSECKEY DNSKEY DHCID NSEC3 NSEC3PARAM TLSA SMIMEA CDS CDNSKEY OPENPGPKEY CSYNC ZONEMD SVCB
    HTTPS SPF IXFR AXFR ANY URI CAA WALLET. *)
Definition known_types : list Z :=
  [1; 2; 3; 4; 5; 6; 7; 8; 9; 10; 12; 13; 14; 15; 16; 17; 18; 21; 24; 25; 26; 28; 29; 30; 33; 35; 36; 37; 39;
   41; 42; 43; 44; 45; 46; 47; 48; 49; 50; 51; 52; 53; 59; 60; 61; 62; 63; 64; 65; 99; 104; 105; 106; 107;
   108; 109; 128; 249; 250; 251; 252; 255; 256; 257; 262].
(** Records without RDATA: any class but IN, the types NULL and APL, unknown types *)
Definition empty_ok (rclass t : Z) : Prop := rclass <> 1 \/ t = 10 \/ t = 42 \/ ~ In t known_types.

(** Types whose names are lowercased in the canonical form, RFC 4034 section 6.2 as updated by RFC 6840
    section 5.1: NS MD MF CNAME SOA MB MG MR PTR MINFO MX RP AFSDB RT SIG PX NXT SRV NAPTR KX DNAME RRSIG *)
Definition lowered_types : list Z := [2; 3; 4; 5; 6; 7; 8; 9; 12; 14; 15; 17; 18; 21; 24; 26; 30; 33; 35; 36; 39; 46].
Definition lower_piece (p : piece) : piece := match p with PData l => PData l | PName ls => PName (lower_name ls) end.

(** big-endian numbers in a message *)
Definition u16_at (m : list Z) (pos v : Z) : Prop :=
  exists a b, zget m pos = Some a /\ zget m (pos + 1) = Some b /\ v = 256 * a + b.
Definition u32_at (m : list Z) (pos v : Z) : Prop :=
  exists a b, u16_at m pos a /\ u16_at m (pos + 2) b /\ v = 65536 * a + b.

(** The pieces are in the message from [pos] to [next] and reach nothing at or behind [e]; names may
    be compressed. *)
Inductive pieces_at (m : list Z) (e : Z) : Z -> list piece -> Z -> Prop :=
| pa_nil : forall pos, pieces_at m e pos [] pos
| pa_data : forall pos l ps next, 0 <= pos -> pos + zlen l <= e -> pos + zlen l <= zlen m ->
    (forall i, 0 <= i < zlen l -> zget m (pos + i) = zget l i) ->
    pieces_at m e (pos + zlen l) ps next -> pieces_at m e pos (PData l :: ps) next
| pa_name : forall pos ls n ps next, encodes (zfirstn e m) true pos ls n ->
    pieces_at m e (pos + n) ps next -> pieces_at m e pos (PName ls :: ps) next.

(** A record: owner, type, class, TTL and the pieces of RDATA. *)
Record record := mkrecord { r_owner : list label; r_type : Z; r_class : Z; r_ttl : Z; r_data : list piece }.

(** The fields of a record from [pos]; the RDATA are the octets from [d] to [e]. *)
Definition fields_at (m : list Z) (pos : Z) (r : record) (d e : Z) : Prop :=
  exists n rdlen, encodes m true pos (r_owner r) n /\ d = pos + n + 10 /\ e = d + rdlen /\ e <= zlen m /\
    u16_at m (pos + n) (r_type r) /\ u16_at m (pos + n + 2) (r_class r) /\ u32_at m (pos + n + 4) (r_ttl r) /\
    u16_at m (pos + n + 8) rdlen.

(** A record is in the message from [pos] to [e], its RDATA fill exactly RDLENGTH octets. *)
Definition record_at (m : list Z) (pos : Z) (r : record) (e : Z) : Prop :=
  exists d, fields_at m pos r d e /\ pieces_at m e d (r_data r) e.

(** The canonical form of a record. *)
Definition canonical_record (r : record) : record :=
  mkrecord (lower_name (r_owner r)) (r_type r) (r_class r) (r_ttl r)
    (if existsb (Z.eqb (r_type r)) lowered_types then map lower_piece (r_data r) else r_data r).
