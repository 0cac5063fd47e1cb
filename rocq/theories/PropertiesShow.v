(** C52: which of the statements util/interactive_parse prints read back as themselves. *)
From Verif Require Import Base ModelNumeric ModelExpr ModelMnemonic ModelAMode ModelState ModelInstr ModelToken ModelStatement
  ModelParse ModelInteractive SpecSafe SpecShow ShowProofs ShowExactProofs.
Open Scope string_scope.
Open Scope list_scope.
Open Scope Z_scope.

(** A label or statement found on any line is read back from what is printed for it exactly when
    its operands are names and numbers, no decimal number is negative, and it is not .remote. *)
Theorem C52_exact : forall line l p, read_as line l -> In p l ->
  (read_as (entity_line p) [p] <-> plain_parsed p).
Proof. exact shown_exact. Qed.
Definition case_line : string :=
  "export top: LDA.b [$12],y : jsr m::sub1 yields m8x16 : { .db 1, $ff, @q : .entry m8 noreturn : mvn #1,#$7 : LSR A : }".
Definition case_parsed : list parsed :=
  match tokenize case_line with Ok ts => match parse ts with Ok l => l | _ => [] end | _ => [] end.
Example C52_exact_case : read_as case_line case_parsed /\ Forall plain_parsed case_parsed /\
  map entity_line case_parsed =
    ["export top:"; "    lda.b [$12], Y"; "    jsr m::sub1 yields m8x16"; "    .BEGIN"; "    .DB 1, $ff, @q";
     "    .ENTRY m8 noreturn"; "    mvn #1, #$07"; "    lsr"; "    .END"].
Proof.
  split; [|split; [|vm_compute; reflexivity]].
  - destruct (tokenize case_line) as [ts| | |] eqn:T; [|vm_compute in T; discriminate T..].
    exists ts. split; [exact T|]. unfold case_parsed. rewrite T.
    destruct (parse ts) eqn:P; [reflexivity|exfalso..].
    all: assert (X : bind (tokenize case_line) parse = bind (tokenize case_line) parse) by reflexivity;
      rewrite T in X at 1; cbn [bind] in X; rewrite P in X; vm_compute in X; discriminate X.
  - unfold case_parsed. vm_compute. repeat constructor; try discriminate; cbn.
    all: try (intros d E; injection E as <-; discriminate).
    all: intros e H; repeat destruct H as [H|H]; try discriminate H; try contradiction; try (injection H as <-); subst; cbn; try exact I; intros; discriminate.
Qed.
Print Assumptions C52_exact.

(** Typing the printed lines again prints them again. *)
Theorem C52_again : forall msg line l o, read_as line l -> Forall plain_parsed l ->
  In o (map entity_line l) -> answer msg o = Ok [o].
Proof. exact answered. Qed.
Example C52_again_case : answer (fun _ => "") "    lda.b [$12], Y" = Ok ["    lda.b [$12], Y"].
Proof. vm_compute. reflexivity. Qed.
Print Assumptions C52_again.

(** Without the condition: a negation is printed as [op-(1)], which is read as the difference of
    a symbol [op] and 1. *)
Theorem C52_negation_refuted : exists line p q, read_as line [p] /\ read_as (entity_line p) [q] /\
  p = PStmt (SInstr (Instr M_lda S_none A_imm_fm (Some (EUn Op_neg (ELit 1 T_unknown))) None RC_default)) /\
  q = PStmt (SInstr (Instr M_lda S_none A_imm_fm (Some (EBin Op_minus (EId (FullId None "op") T_word) (ELit 1 T_unknown))) None RC_default)).
Proof.
  exists "lda #-1". eexists. eexists. split; [|split; [|split; reflexivity]].
  - exists [TMnem M_lda; TPunct 35; TPunct 45; TLit 1 T_unknown; TEol]. split; vm_compute; reflexivity.
  - exists [TMnem M_lda; TPunct 35; TIdent "op"; TPunct 45; TPunct 40; TLit 1 T_unknown; TPunct 41; TEol]. split; vm_compute; reflexivity.
Qed.
Print Assumptions C52_negation_refuted.
(** The printed form of .remote lacks the name of the directive. *)
Theorem C52_remote_refuted : exists line p, read_as line [p] /\ entity_line p = "     foo m8" /\
  forall l, ~ read_as (entity_line p) l.
Proof.
  exists " .remote foo m8 noreturn".
  exists (PStmt (SDir (Directive D_remote (Some (EId (FullId None "foo") T_word)) (match flags_from_name "m8" with Some f => f | None => default_flags end) RC_noreturn []))).
  split; [|split; [vm_compute; reflexivity|]].
  - exists [TDir D_remote; TIdent "foo"; TIdent "m8"; TPunct P_noreturn; TEol]. split; vm_compute; reflexivity.
  - intros l (ts & T & P). vm_compute in T. injection T as <-. vm_compute in P. discriminate P.
Qed.
Print Assumptions C52_remote_refuted.
