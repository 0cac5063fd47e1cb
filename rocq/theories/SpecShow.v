(** Statements whose printed form says everything. *)
From Verif Require Import Base ModelNumeric ModelExpr ModelMnemonic ModelState ModelInstr ModelToken ModelStatement ModelParse SpecSafe.
Open Scope Z_scope.

(** A number or a name; decimal numbers are not negative (they can be when they overflow). *)
Definition plain_operand (e : expr) : Prop :=
  match e with
  | ELit v t => t = T_unknown -> 0 <= v
  | EId _ _ => True
  | _ => False
  end.
(** All operands are such, and the statement is not .remote. *)
Definition plain_statement (s : statement) : Prop :=
  (forall e, operand s e -> plain_operand e) /\
  (forall d, s = SDir d -> d_name d <> D_remote).
Definition plain_parsed (p : parsed) : Prop :=
  match p with PStmt s => plain_statement s | PLabel _ _ => True end.
(** What a line is read as. *)
Definition read_as (line : string) (l : list parsed) : Prop :=
  exists ts, tokenize line = Ok ts /\ parse ts = Ok l.
