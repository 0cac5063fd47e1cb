(** Messages of LoadAsmFile about labels, modules and blocks. *)
From Verif Require Import Base ModelMnemonic ModelExpr ModelInstr ModelStatement ModelParse ModelMap ModelModule ModelLocation ModelRomText ModelParseText ModelFlagText.
Open Scope string_scope.
Open Scope list_scope.
Open Scope Z_scope.

(** nsasm/module.cc:86-103. *)
Definition t_add_label (m : module) (scopes : list Z) (name : string) (exported : bool) (target : Z) : pres module :=
  let duplicate := err_here E_duplicate ("Duplicate label definition for '" ++ name ++ "'")%string in
  match scopes, exported with
  | i :: _, false =>
      match znth (md_lines m) i with
      | None => PUB UB_oob
      | Some l =>
          match assoc_string name (ln_locals l) with
          | Some _ => duplicate
          | None => POk (md_with_lines (zset i (ln_with_locals (ln_locals l ++ [(name, target)]) l) (md_lines m)) m)
          end
      end
  | _, _ =>
      match assoc_string name (md_globals m) with
      | Some _ => duplicate
      | None => POk (md_with_globals (md_globals m ++ [(name, target)]) m)
      end
  end.
(** nsasm/module.cc:119-129. *)
Fixpoint t_add_pending (m : module) (scopes : list Z) (pending : list (string * bool)) : pres module :=
  match pending with
  | [] => POk m
  | (name, exported) :: rest =>
      let^ m := t_add_label m scopes name exported (zlen (md_lines m) - 1) in
      t_add_pending (upd_back (ln_add_label name) m) scopes rest
  end.
(** nsasm/module.cc:132-155. *)
Definition t_load_directive (m : module) (scopes : list Z) (s : statement) : pres loader :=
  match s with
  | SInstr _ => POk (Loader m [] scopes)
  | SDir d =>
      match d_name d with
      | D_module =>
          if negb (String.eqb (md_name m) "") then err_here E_duplicate ("Duplicate " ++ dir_to_string (d_name d) ++ " directive")%string
          else match simple_identifier_opt (d_arg d) with
               | None => err_here E_logic ("logic error: " ++ dir_to_string (d_name d) ++ " directive with complex expression")%string
               | Some id => POk (Loader (md_with_name id m) [] scopes)
               end
      | D_begin => POk (Loader m [] ((zlen (md_lines m) - 1) :: scopes))
      | D_end =>
          match scopes with
          | [] => err_here E_scope "Scope close without matching open"
          | _ :: scopes' => POk (Loader m [] scopes')
          end
      | _ => POk (Loader m [] scopes)
      end
  end.
(** nsasm/module.cc:114-159, one parsed entity.  The location, that of the line, is set by the caller (see C53). *)
Definition t_load_entity (ld : loader) (e : parsed) : pres loader :=
  match e with
  | PLabel n x => POk (Loader (ld_mod ld) (ld_pending ld ++ [(n, x)]) (ld_scopes ld))
  | PStmt s =>
      let m := ld_mod ld in
      let m := md_with_lines (md_lines m ++ [new_line s]) m in
      let^ m := t_add_pending m (ld_scopes ld) (ld_pending ld) in
      let m := upd_back (ln_with_scopes (ld_scopes ld)) m in
      t_load_directive m (ld_scopes ld) s
  end.
