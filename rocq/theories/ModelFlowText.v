(** Messages about branches to nowhere, and lines that are not reached or have no address. *)
From Verif Require Import Base ModelMnemonic ModelExpr ModelInstr ModelStatement.
Open Scope string_scope.

(** nsasm/module.cc:228-230, 244-245 and 264-265: the message of each error of RunFirstPass itself about the statement [s]. *)
Definition flow_text (e : err) (s : statement) : string :=
  match e, s with
  | E_no_target, SInstr i => "Target for `" ++ mnem_to_string (i_mnem i) ++ " " ++ match simple_identifier_opt (i_arg1 i) with Some t => t | None => "" end ++ "` not found"
  | E_unreached, SInstr _ => "Line not reached during execution"
  | E_no_address, _ => "No address given for assembly"
  | _, _ => ""
  end.
