(** What is asked of a message that is to be read back: where OPT and TSIG may be (RFC 6891 6.1.1, RFC 8945 5.1). *)
From Verif Require Import Base DnameModel DnameSpec RrwireModel RrwireSpec ComprSpec ComprModel PutModel PutSpec EdnsModel EdnsProps PktparseSpec.

(** There is at most one OPT and at most one TSIG, both are in the additional section, TSIG is the last record, and
    their RDATA have the right form. *)
Definition specials_placed (l : list (item * list piece)) : Prop :=
  forall a i d b, l = a ++ (i, d) :: b ->
    (x_type (i_rrs i) = 250 -> i_section i = 2 /\ b = [] /\ tsig_rdata (flat d)) /\
    (x_type (i_rrs i) = 41 -> i_section i = 2 /\ opt_rdata (flat d) /\ forall j e, In (j, e) (a ++ b) -> x_type (i_rrs j) <> 41).
