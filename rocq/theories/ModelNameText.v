(** Messages about the names in an expression. *)
From Verif Require Import Base ModelMnemonic ModelExpr ModelMap ModelModule ModelAssembler ModelLocation ModelRomText ModelParseText ModelFlagText.
Open Scope string_scope.
Open Scope list_scope.
Open Scope Z_scope.

(** nsasm/expression.h:82-86, with messages. *)
Definition t_lookup := fullid -> pres Z.
(** nsasm/expression.h:88-93. *)
Definition t_null_ctx : t_lookup := fun _ => err_here E_null_lookup "Can't perform name lookup in this context".
(** A result without message: only the operators, whose one error is nsasm/expression.h:40-42. *)
Definition t_op (r : res Z) : pres Z :=
  match r with Ok a => POk a | Err e => err_here e "division by zero" | UB u => PUB u | OutOfFuel => PFuel end.
(** nsasm/expression.h:220-375, as [eval]. *)
Fixpoint t_eval (c : t_lookup) (e : expr) : pres Z :=
  match e with
  | ELit v _ => POk v
  | EId id _ => c id
  | EBin op l r =>
      match t_eval c l, t_eval c r with
      | PUB u, _ => PUB u
      | PFuel, _ => PFuel
      | _, PUB u => PUB u
      | _, PFuel => PFuel
      | PErr e, _ => PErr e
      | POk _, PErr e => PErr e
      | POk a, POk b => t_op (apply_binop op a b)
      end
  | EUn op a => let^ v := t_eval c a in t_op (apply_unop op v)
  | ELabel _ h => t_eval c h
  end.
(** nsasm/module.cc:295-302. *)
Definition t_local_lookup (m : module) (i : Z) (id : fullid) : pres Z :=
  match znth (md_lines m) i with
  | None => PUB UB_oob
  | Some l => match ln_value l with Some v => POk v | None => err_here E_before_def ("Value '" ++ fullid_to_string id ++ "' accessed before definition")%string end
  end.
(** nsasm/module.cc:11-48.  The message of LocalIndex (line 292) is dropped. *)
Definition t_module_ctx (m : module) (scopes : list Z) (externs : t_lookup) : t_lookup :=
  fun id =>
    match fi_module id with
    | Some mn =>
        if String.eqb mn (md_name m) then
          match local_index m (fi_name id) [] with
          | Ok i => t_local_lookup m i id
          | _ => externs id
          end
        else externs id
    | None =>
        match local_index m (fi_name id) scopes with
        | Ok i => t_local_lookup m i id
        | _ => externs (FullId (Some "") (fi_name id))
        end
    end.
(** nsasm/module.cc:419-434; [path] is path_. *)
Definition t_value_for_name (path : string) (m : module) (id : fullid) : pres Z :=
  let absent := err_here E_logic ("logic error: Lookup of name " ++ fullid_to_string id ++ " in " ++ path ++ " (not present)")%string in
  match fi_module id with
  | Some mn =>
      if String.eqb mn (md_name m) then
        match assoc_string (fi_name id) (md_globals m) with
        | None => absent
        | Some i =>
            match znth (md_lines m) i with
            | None => PUB UB_oob
            | Some l => match ln_value l with Some v => POk v | None => err_here E_logic ("logic error: No value at label " ++ fullid_to_string id)%string end
            end
        end
      else absent
  | None => absent
  end.
(** nsasm/assembler.cc:63-83; [paths] gives the path of each module. *)
Definition t_assembler_ctx (paths : Z -> string) (ms : list module) (names : list (fullid * Z)) : t_lookup :=
  fun id =>
    if negb (fi_qualified id) then err_here E_logic ("logic error: assembler lookup passed unqualified name '" ++ fullid_to_string id ++ "'")%string
    else match assoc_id id names with
         | None => err_here E_undefined ("No definition for '" ++ fullid_to_string id ++ "' found")%string
         | Some i =>
             match znth ms i with
             | None => PUB UB_oob
             | Some m => t_value_for_name (paths i) m id
             end
         end.
