(** util/interactive_parse.cc. *)
From Verif Require Import Base ModelToken ModelStatement ModelParse.
Open Scope string_scope.

(** nsasm/parse.cc:506-514; labels are names, see [ModelParse.parsed]. *)
Definition label_to_string (name : string) (exported : bool) : string :=
  if exported then String.append "export " name else name.

(** util/interactive_parse.cc:34-43: one label or statement. *)
Definition entity_line (p : parsed) : string :=
  match p with
  | PLabel n x => String.append (label_to_string n x) ":"
  | PStmt s => String.append "    " (stmt_to_string s)
  end.

(** util/interactive_parse.cc:20-43: the answer to a line; [msg] is the text of an error. *)
Definition answer (msg : err -> string) (line : string) : res (list string) :=
  match tokenize line with
  | Ok ts =>
      match parse ts with
      | Ok l => Ok (map entity_line l)
      | Err e => Ok [msg e]
      | UB u => UB u
      | OutOfFuel => OutOfFuel
      end
  | Err e => Ok [msg e]
  | UB u => UB u
  | OutOfFuel => OutOfFuel
  end.
