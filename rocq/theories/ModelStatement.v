(** Directives and statements.  Transcribes nsasm/directive.{h,cc} and
    nsasm/statement.{h,cc}. *)
From Verif Require Import Base ModelNumeric ModelAddress ModelMnemonic ModelExpr ModelAMode
  ModelOpcode ModelState ModelInstr.
Open Scope string_scope.
Open Scope Z_scope.

(** nsasm/directive.h:18-27. *)
Inductive directive_type :=
| DT_no_arg | DT_single_arg | DT_constant_arg | DT_flag_arg | DT_calling_convention_arg
| DT_list_arg | DT_name_arg | DT_remote_arg.

(** nsasm/directive.cc:12-26. *)
Definition directive_type_by_name (d : directive_name) : directive_type :=
  match d with
  | D_begin => DT_no_arg | D_db => DT_list_arg | D_dl => DT_list_arg | D_dw => DT_list_arg
  | D_end => DT_no_arg | D_entry => DT_calling_convention_arg | D_equ => DT_single_arg
  | D_halt => DT_no_arg | D_mode => DT_flag_arg | D_module => DT_name_arg
  | D_org => DT_constant_arg | D_remote => DT_remote_arg
  end.

(** nsasm/directive.h:32-39.  Elements of list_argument are never null (parse.cc:470-478). *)
Record directive := Directive {
  d_name : directive_name; d_arg : option expr; d_flags : flags; d_ret : retconv;
  d_list : list expr }.

(** absl::StrJoin. *)
Fixpoint str_join (sep : string) (l : list string) : string :=
  match l with
  | [] => ""
  | [s] => s
  | s :: l' => String.append s (String.append sep (str_join sep l'))
  end.

(** nsasm/directive.cc:28-54. *)
Definition directive_to_string (d : directive) : string :=
  match directive_type_by_name (d_name d) with
  | DT_no_arg => dir_to_string (d_name d)
  | DT_single_arg | DT_constant_arg | DT_name_arg =>
      dir_to_string (d_name d) ++ " " ++ expr_opt_to_string (d_arg d)
  | DT_flag_arg | DT_calling_convention_arg =>
      dir_to_string (d_name d) ++ " " ++ flags_to_name (d_flags d) ++ rc_to_suffix (d_ret d)
  | DT_list_arg =>
      dir_to_string (d_name d) ++ " " ++ str_join ", " (map expr_to_string (d_list d))
  | DT_remote_arg =>
      dir_to_string (d_name d) ++ " " ++ expr_opt_to_string (d_arg d) ++ " "
      ++ flags_to_name (d_flags d)
  end%string.

(** nsasm/directive.cc:56-69. *)
Definition directive_execute (d : directive) (s : estate) : res estate :=
  match d_name d with
  | D_db | D_dl | D_dw | D_org => Err E_exec_data
  | D_mode => Ok (with_flags (d_flags d) s)
  | _ => Ok s
  end.

(** nsasm/directive.cc:71-81.  The product is computed in size_t and converted to int; the
    reduction is not modelled (it needs 2^31 bytes of data in one statement). *)
Definition directive_size (d : directive) : Z :=
  match d_name d with D_db => 1 | D_dw => 2 | D_dl => 3 | _ => 0 end
  * Z.of_nat (List.length (d_list d)).

(** nsasm/directive.cc:84-92. *)
Definition encode_value (d : directive_name) (v : Z) : list Z :=
  ([Z.land v 0xff]
   ++ (match d with D_dw | D_dl => [Z.land (Z.shiftr v 8) 0xff] | _ => [] end)
   ++ (match d with D_dl => [Z.land (Z.shiftr v 16) 0xff] | _ => [] end))%list.

(** nsasm/directive.cc:102-106. *)
Fixpoint encode_list (d : directive_name) (c : lookup_ctx) (l : list expr) : res (list Z) :=
  match l with
  | [] => Ok []
  | e :: l' =>
      let* v := eval c e in
      let* rest := encode_list d c l' in
      Ok (encode_value d v ++ rest)%list
  end.

(** nsasm/directive.cc:95-108.  [None]: nothing is written; [Some bytes]: one call of
    sink->Write with these bytes. *)
Definition directive_bytes (c : lookup_ctx) (d : directive) : res (option (list Z)) :=
  match d_name d with
  | D_db | D_dw | D_dl => let* b := encode_list (d_name d) c (d_list d) in Ok (Some b)
  | _ => Ok None
  end.

(** nsasm/statement.h:12-67. *)
Inductive statement := SInstr (i : instr) | SDir (d : directive).

(** nsasm/statement.h:36-43. *)
Definition stmt_is_dir (n : directive_name) (s : statement) : bool :=
  match s with SDir d => dir_eqb (d_name d) n | SInstr _ => false end.
Definition stmt_is_mnem (m : mnemonic) (s : statement) : bool :=
  match s with SInstr i => mnem_eqb (i_mnem i) m | SDir _ => false end.

(** nsasm/statement.cc:5-13. *)
Definition stmt_to_string (s : statement) : string :=
  match s with SInstr i => instr_to_string i | SDir d => directive_to_string d end.
(** nsasm/statement.cc:15-23. *)
Definition stmt_execute (s : statement) (es : estate) : res estate :=
  match s with SInstr i => execute i es | SDir d => directive_execute d es end.
(** nsasm/statement.cc:35-43. *)
Definition stmt_size (s : statement) : Z :=
  match s with SInstr i => instr_size i | SDir d => directive_size d end.
(** nsasm/statement.cc:45-57: the bytes given to sink->Write, if it is called. *)
Definition stmt_bytes (address : Z) (c : lookup_ctx) (s : statement) : res (option (list Z)) :=
  match s with
  | SInstr i => let* b := instr_bytes address c i in Ok (Some b)
  | SDir d => directive_bytes c d
  end.
(** nsasm/statement.h:56-59. *)
Definition stmt_is_local_branch (s : statement) : bool :=
  match s with SInstr i => is_local_branch i | SDir _ => false end.
(** nsasm/statement.cc:59-67, nsasm/directive.h:53. *)
Definition stmt_is_exit (s : statement) : bool :=
  match s with SInstr i => is_exit_instruction i | SDir d => dir_eqb (d_name d) D_halt end.
