(** C70: what the writer of JSON writes is read as the document that was meant. *)
From Verif Require Import Base TrafoModel TrafoSpec TrafoProofs JsonModel JsonSpec JsonProofs JsonProofs2.

(** For every document nested at most sixteen deep, whose strings have no control characters and whose members have names,
    and every white indentation: the calls that write it end, and the text is read as this document. *)
Theorem c70_roundtrip : forall ind d cs, white ind -> writes 16 None d cs ->
  exists w, run ind cs jsonw_new = Ok w /\ read (w_out (jsonw_free ind w)) = Some d.
Proof.
  intros ind d cs Hi H. destruct all_good as (G & _ & _). destruct (G _ _ _ _ H ind jsonw_new Hi I (le_n _)) as (txt & ts & E & L & _ & V).
  cbn [jsonw_new w_out w_stack comma nl w_wrap ktext bump app] in E. eexists. split; [exact E|].
  unfold jsonw_free, wrap, put, read. cbn [w_out w_stack w_wrap negb length repeat concat]. rewrite L by reflexivity.
  change (lex Idle [10]) with (Some (@nil token)). cbn [omap]. rewrite V by (rewrite app_length; lia). auto.
Qed.
(** In any block: a value adds one element, with its comma, and nothing of what was written before changes. *)
Theorem c70_nested : forall ind h k d cs w, white ind -> okkey k -> (length (w_stack w) + h <= 16)%nat -> writes h k d cs ->
  exists txt, run ind cs w = Ok (mkw (w_out w ++ txt) (bump (w_stack w)) true).
Proof.
  intros ind h k d cs w Hi Hk Hd H. destruct all_good as (G & _ & _). destruct (G _ _ _ _ H ind w Hi Hk Hd) as (txt & ts & E & _).
  exists (comma w ++ nl ind w ++ ktext k ++ txt). exact E.
Qed.
(** Two documents with the same text are the same. *)
Theorem c70_injective : forall ind d d' cs cs' w w', white ind -> writes 16 None d cs -> writes 16 None d' cs' ->
  run ind cs jsonw_new = Ok w -> run ind cs' jsonw_new = Ok w' -> w_out w = w_out w' -> d = d'.
Proof.
  intros ind d d' cs cs' w w' Hi H H' E E' O. destruct (c70_roundtrip ind d cs Hi H) as (w1 & E1 & R1). destruct (c70_roundtrip ind d' cs' Hi H') as (w2 & E2 & R2).
  assert (w1 = w) by congruence. assert (w2 = w') by congruence. subst.
  destruct all_good as (G & _ & _).
  destruct (G _ _ _ _ H ind jsonw_new Hi I (le_n _)) as (t & ts & X & _). destruct (G _ _ _ _ H' ind jsonw_new Hi I (le_n _)) as (t' & ts' & X' & _).
  cbn [jsonw_new w_stack bump] in X, X'. rewrite E in X. rewrite E' in X'. inversion X as [Y]. inversion X' as [Y']. rewrite Y in *. rewrite Y' in *.
  unfold jsonw_free, wrap, put in R1, R2. cbn [w_out w_stack w_wrap negb] in R1, R2, O. rewrite O in R1. congruence.
Qed.

(** An object with three members: a list of two numbers and null, an empty object, and a string with a NUL and a backslash;
    the first name ends with a quote. *)
Definition c70_doc : doc := DObj [([97; 34], DList [DNum 1; DNum (-2); DNull]); ([98], DObj []); ([99], DStr [120; 0; 92])].
Definition c70_calls : list call :=
  [CObject None; CList (Some [97; 34]); CNum None 1; CNum None (-2); CNull None; CEnd; CObject (Some [98]); CEnd; CStrLen (Some [99]) [120; 0; 92] true; CEnd].
Example c70_example : writes 16 None c70_doc c70_calls /\ white [32; 32] /\
  (let* w := run [32; 32] c70_calls jsonw_new in Ok (read (w_out (jsonw_free [32; 32] w)))) = Ok (Some c70_doc).
Proof.
  split; [|split; [repeat constructor|vm_compute; reflexivity]]. unfold c70_doc.
  assert (N : forall h n, -2 ^ 31 <= n < 2 ^ 64 -> writes h None (DNum n) [CNum None n]) by (intros; constructor; auto).
  change c70_calls with (CObject None :: (([CList (Some [97; 34])] ++ ([CNum None 1] ++ [CNum None (-2)] ++ [CNull None] ++ []) ++ [CEnd]) ++ ([CObject (Some [98])] ++ [] ++ [CEnd]) ++ [CStrLen (Some [99]) [120; 0; 92] true] ++ []) ++ [CEnd]).
  apply w_obj. apply wo_cons; [repeat constructor; lia|discriminate| |].
  - cbn [app]. apply (w_list 14 (Some [97; 34]) _ ([CNum None 1] ++ [CNum None (-2)] ++ [CNull None] ++ [])).
    repeat (apply wl_cons; [constructor; lia|]). apply wl_nil.
  - apply wo_cons; [repeat constructor; lia|discriminate| |].
    + apply (w_obj 14 (Some [98]) [] []). constructor.
    + apply wo_cons; [repeat constructor; lia|discriminate|constructor; repeat constructor; lia|constructor].
Qed.

(** Control characters are written as they are, and JSON forbids them in strings: kdig writes the text of an extended error,
    which comes from the server, in this way (src/utils/common/exec.c:777). *)
Theorem c70_control_refuted : exists cs w, cs = [CObject None; CStrLen (Some [84]) [10] true; CEnd] /\
  run [32] cs jsonw_new = Ok w /\ read (w_out (jsonw_free [32] w)) = None.
Proof.
  exists [CObject None; CStrLen (Some [84]) [10] true; CEnd], (mkw [123; 10; 32; 34; 84; 34; 58; 32; 34; 10; 34; 10; 125] [] true).
  split; [auto|]. split; vm_compute; reflexivity.
Qed.
(** A member with an empty name is written without a name. *)
Theorem c70_empty_name_refuted : exists cs w, cs = [CObject None; CNull (Some []); CEnd] /\
  run [32] cs jsonw_new = Ok w /\ read (w_out (jsonw_free [32] w)) = None.
Proof.
  exists [CObject None; CNull (Some []); CEnd], (mkw [123; 10; 32; 110; 117; 108; 108; 10; 125] [] true). split; [auto|]. split; vm_compute; reflexivity.
Qed.
(** The seventeenth nested block fails an assertion. *)
Theorem c70_depth_refuted : run [32] (repeat (CList None) 17) jsonw_new = UB /\ exists w, run [32] (repeat (CList None) 16) jsonw_new = Ok w.
Proof. split; [vm_compute; reflexivity|]. destruct (run [32] (repeat (CList None) 16) jsonw_new) eqn:E; [exists a; auto| | |]; vm_compute in E; discriminate E. Qed.

Print Assumptions c70_roundtrip.
Print Assumptions c70_nested.
Print Assumptions c70_injective.
Print Assumptions c70_control_refuted.
Print Assumptions c70_empty_name_refuted.
Print Assumptions c70_depth_refuted.
