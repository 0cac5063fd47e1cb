(** Modules.  Transcribes nsasm/module.{h,cc}. *)
From Verif Require Import Base ModelNumeric ModelAddress ModelMnemonic ModelExpr ModelAMode
  ModelOpcode ModelState ModelInstr ModelToken ModelStatement ModelParse ModelMap ModelRanges.
Open Scope string_scope.
Open Scope Z_scope.

(** nsasm/module.h:100-111.  Line numbers are Z.  [ln_scopes] lists the active scopes with
    the innermost (the back of the vector) first.  plus_minus_labels is always empty, see
    [ModelParse.parsed]. *)
Record line := Line {
  ln_stmt : statement; ln_labels : list string; ln_reached : bool; ln_in : estate;
  ln_value : option Z; ln_scopes : list Z; ln_locals : list (string * Z) }.

(** nsasm/module.h:101-102. *)
Definition new_line (s : statement) : line := Line s [] false default_estate None [] [].

Definition ln_with_stmt (s : statement) (l : line) : line :=
  Line s (ln_labels l) (ln_reached l) (ln_in l) (ln_value l) (ln_scopes l) (ln_locals l).
Definition ln_add_label (n : string) (l : line) : line :=
  Line (ln_stmt l) (ln_labels l ++ [n])%list (ln_reached l) (ln_in l) (ln_value l)
       (ln_scopes l) (ln_locals l).
Definition ln_with_scopes (sc : list Z) (l : line) : line :=
  Line (ln_stmt l) (ln_labels l) (ln_reached l) (ln_in l) (ln_value l) sc (ln_locals l).
Definition ln_with_locals (x : list (string * Z)) (l : line) : line :=
  Line (ln_stmt l) (ln_labels l) (ln_reached l) (ln_in l) (ln_value l) (ln_scopes l) x.
Definition ln_visit (s : estate) (l : line) : line :=
  Line (ln_stmt l) (ln_labels l) true s (ln_value l) (ln_scopes l) (ln_locals l).
Definition ln_with_value (v : Z) (l : line) : line :=
  Line (ln_stmt l) (ln_labels l) (ln_reached l) (ln_in l) (Some v) (ln_scopes l) (ln_locals l).

(** nsasm/module.h:113-122 (path_ omitted).  The hash maps from names to lines are
    association lists in insertion order. *)
Record module := MkModule {
  md_name : string; md_lines : list line; md_deps : list fullid;
  md_globals : list (string * Z); md_owned : list chunk; md_addr_names : list (Z * string);
  md_targets : omap flags; md_rets : omap retconv }.

(** nsasm/module.h:83. *)
Definition empty_module : module := MkModule "" [] [] [] [] [] [] [].

Definition md_with_lines (ls : list line) (m : module) : module :=
  MkModule (md_name m) ls (md_deps m) (md_globals m) (md_owned m) (md_addr_names m)
         (md_targets m) (md_rets m).
Definition md_with_globals (g : list (string * Z)) (m : module) : module :=
  MkModule (md_name m) (md_lines m) (md_deps m) g (md_owned m) (md_addr_names m)
         (md_targets m) (md_rets m).
Definition md_with_name (n : string) (m : module) : module :=
  MkModule n (md_lines m) (md_deps m) (md_globals m) (md_owned m) (md_addr_names m)
         (md_targets m) (md_rets m).
Definition md_with_deps (d : list fullid) (m : module) : module :=
  MkModule (md_name m) (md_lines m) d (md_globals m) (md_owned m) (md_addr_names m)
         (md_targets m) (md_rets m).
Definition md_with_owned (o : list chunk) (m : module) : module :=
  MkModule (md_name m) (md_lines m) (md_deps m) (md_globals m) o (md_addr_names m)
         (md_targets m) (md_rets m).
Definition md_with_addr_names (a : list (Z * string)) (m : module) : module :=
  MkModule (md_name m) (md_lines m) (md_deps m) (md_globals m) (md_owned m) a
         (md_targets m) (md_rets m).
Definition md_with_targets (t : omap flags) (m : module) : module :=
  MkModule (md_name m) (md_lines m) (md_deps m) (md_globals m) (md_owned m) (md_addr_names m)
         t (md_rets m).
Definition md_with_rets (r : omap retconv) (m : module) : module :=
  MkModule (md_name m) (md_lines m) (md_deps m) (md_globals m) (md_owned m) (md_addr_names m)
         (md_targets m) r.

(** nsasm/module.cc:280-292: search a list of scopes, in order. *)
Fixpoint search_scopes (name : string) (scopes : list (list (string * Z))) : option Z :=
  match scopes with
  | [] => None
  | s :: rest => match assoc_string name s with Some i => Some i | None => search_scopes name rest end
  end.

(** nsasm/module.cc:278-293.  lines_[*it] is always in range; an index outside yields no
    scope here. *)
Definition local_index (m : module) (name : string) (scopes : list Z) : res Z :=
  let maps := map (fun i => match znth (md_lines m) i with
                            | Some l => ln_locals l
                            | None => []
                            end) scopes in
  match search_scopes name (maps ++ [md_globals m])%list with
  | Some i => Ok i
  | None => Err E_undefined
  end.

(** nsasm/module.cc:295-302. *)
Definition local_lookup (m : module) (i : Z) : res Z :=
  match znth (md_lines m) i with
  | None => UB UB_oob
  | Some l => match ln_value l with Some v => Ok v | None => Err E_before_def end
  end.

(** nsasm/module.cc:11-48. *)
Definition module_ctx (m : module) (scopes : list Z) (externs : lookup_ctx) : lookup_ctx :=
  fun id =>
    match fi_module id with
    | Some mn =>
        if String.eqb mn (md_name m) then
          match local_index m (fi_name id) [] with
          | Ok i => local_lookup m i
          | _ => externs id
          end
        else externs id
    | None =>
        match local_index m (fi_name id) scopes with
        | Ok i => local_lookup m i
        | _ => externs (FullId (Some "") (fi_name id))
        end
    end.

(** nsasm/module.cc:50-75. *)
Definition is_local_ctx (m : module) (scopes : list Z) : fullid -> bool :=
  fun id =>
    match fi_module id with
    | Some mn =>
        if String.eqb mn (md_name m) then is_ok (local_index m (fi_name id) []) else false
    | None => is_ok (local_index m (fi_name id) scopes)
    end.

(** LoadAsmFile's local state, nsasm/module.cc:78-84. *)
Record loader := Loader {
  ld_mod : module; ld_pending : list (string * bool); ld_scopes : list Z }.

(** nsasm/module.cc:86-103. *)
Definition add_label (m : module) (scopes : list Z) (name : string) (exported : bool)
           (target : Z) : res module :=
  match scopes, exported with
  | i :: _, false =>
      match znth (md_lines m) i with
      | None => UB UB_oob
      | Some l =>
          match assoc_string name (ln_locals l) with
          | Some _ => Err E_duplicate
          | None =>
              Ok (md_with_lines
                    (zset i (ln_with_locals (ln_locals l ++ [(name, target)])%list l)
                          (md_lines m)) m)
          end
      end
  | _, _ =>
      match assoc_string name (md_globals m) with
      | Some _ => Err E_duplicate
      | None => Ok (md_with_globals (md_globals m ++ [(name, target)])%list m)
      end
  end.

(** m.lines_.back() = f(m.lines_.back()). *)
Definition upd_back (f : line -> line) (m : module) : module :=
  let i := zlen (md_lines m) - 1 in
  match znth (md_lines m) i with
  | Some l => md_with_lines (zset i (f l) (md_lines m)) m
  | None => m
  end.

(** nsasm/module.cc:119-129. *)
Fixpoint add_pending (m : module) (scopes : list Z) (pending : list (string * bool))
  : res module :=
  match pending with
  | [] => Ok m
  | (name, exported) :: rest =>
      let* m := add_label m scopes name exported (zlen (md_lines m) - 1) in
      add_pending (upd_back (ln_add_label name) m) scopes rest
  end.

(** nsasm/module.cc:132-155. *)
Definition load_directive (m : module) (scopes : list Z) (s : statement) : res loader :=
  match s with
  | SInstr _ => Ok (Loader m [] scopes)
  | SDir d =>
      match d_name d with
      | D_module =>
          if negb (String.eqb (md_name m) "") then Err E_duplicate
          else match simple_identifier_opt (d_arg d) with
               | None => Err E_logic
               | Some id => Ok (Loader (md_with_name id m) [] scopes)
               end
      | D_begin => Ok (Loader m [] ((zlen (md_lines m) - 1) :: scopes))
      | D_end =>
          match scopes with
          | [] => Err E_scope
          | _ :: scopes' => Ok (Loader m [] scopes')
          end
      | _ => Ok (Loader m [] scopes)
      end
  end.

(** nsasm/module.cc:114-159, one parsed entity. *)
Definition load_entity (ld : loader) (e : parsed) : res loader :=
  match e with
  | PLabel n x => Ok (Loader (ld_mod ld) (ld_pending ld ++ [(n, x)])%list (ld_scopes ld))
  | PStmt s =>
      let m := ld_mod ld in
      let m := md_with_lines (md_lines m ++ [new_line s])%list m in
      let* m := add_pending m (ld_scopes ld) (ld_pending ld) in
      let m := upd_back (ln_with_scopes (ld_scopes ld)) m in
      load_directive m (ld_scopes ld) s
  end.
Fixpoint load_entities (ld : loader) (es : list parsed) : res loader :=
  match es with
  | [] => Ok ld
  | e :: es' => let* ld := load_entity ld e in load_entities ld es'
  end.

(** nsasm/module.cc:106-160. *)
Fixpoint load_lines (ld : loader) (file : list string) : res loader :=
  match file with
  | [] => Ok ld
  | s :: rest =>
      let* ts := tokenize s in
      let* es := parse ts in
      let* ld := load_entities ld es in
      load_lines ld rest
  end.

(** nsasm/module.cc:165-172. *)
Definition compute_deps (m : module) : list fullid :=
  flat_map (fun l =>
              match ln_stmt l with
              | SDir d =>
                  match d_name d with
                  | D_equ => external_names_opt (is_local_ctx m (ln_scopes l)) (d_arg d)
                  | _ => []
                  end
              | SInstr _ => []
              end) (md_lines m).

(** nsasm/module.cc:77-174. *)
Definition load_asm_file (file : list string) : res module :=
  let* ld := load_lines (Loader empty_module [] []) file in
  match ld_scopes ld with
  | _ :: _ => Err E_scope
  | [] => Ok (md_with_deps (compute_deps (ld_mod ld)) (ld_mod ld))
  end.

(** nsasm/module.cc:178-187. *)
Definition add_state (k : Z) (s : estate) (st : omap estate) : omap estate :=
  om_merge es_merge k s st.

(** nsasm/module.cc:189-195, from line [i] on. *)
Fixpoint entry_states (i : Z) (ls : list line) (st : omap estate) : omap estate :=
  match ls with
  | [] => st
  | l :: ls' =>
      let st := match ln_stmt l with
                | SDir d =>
                    match d_name d with
                    | D_entry => add_state (i + 1) (estate_of_flags (d_flags d)) st
                    | _ => st
                    end
                | SInstr _ => st
                end in
      entry_states (i + 1) ls' st
  end.

(** One iteration of the loop of nsasm/module.cc:197-237 on lines [ls] and a non-empty
    worklist.  The node being processed is not removed from the worklist; it is removed by
    the iteration that finds its line already visited in the same state. *)
Definition first_pass_step (m : module) (ls : list line) (st : omap estate)
  : res (list line * omap estate) :=
  match st with
  | [] => Ok (ls, st)
  | (k, cur) :: rest =>
      if k =? zlen ls then Err E_past_end
      else match znth ls k with
      | None => UB UB_oob
      | Some l =>
          if ln_reached l && es_eqb (ln_in l) cur then Ok (ls, rest)
          else
            let ls' := zset k (ln_visit cur l) ls in
            let s := ln_stmt l in
            let* next := stmt_execute s cur in
            let st1 := if stmt_is_exit s then st else add_state (k + 1) next st in
            match s with
            | SInstr i =>
                if is_local_branch i then
                  match simple_identifier_opt (i_arg1 i) with
                  | None => Err E_logic
                  | Some target =>
                      match local_index m target (ln_scopes l) with
                      | Ok idx =>
                          let* next := execute_branch i cur in
                          Ok (ls', add_state idx next st1)
                      | _ => Err E_no_target
                      end
                  end
                else Ok (ls', st1)
            | SDir _ => Ok (ls', st1)
            end
      end
  end.

(** nsasm/module.cc:197-237.  [m] supplies the scopes (scoped_locals and global_to_line_,
    which the loop does not change). *)
Fixpoint first_pass_loop (fuel : nat) (m : module) (ls : list line) (st : omap estate)
  : res (list line) :=
  match st with
  | [] => Ok ls
  | _ =>
      match fuel with
      | O => OutOfFuel
      | S f => let* (ls', st') := first_pass_step m ls st in first_pass_loop f m ls' st'
      end
  end.

(** nsasm/module.cc:241-251. *)
Fixpoint fix_modes (ls : list line) : res (list line) :=
  match ls with
  | [] => Ok []
  | l :: ls' =>
      let* l' :=
        match ln_stmt l with
        | SInstr i =>
            if negb (ln_reached l) then Err E_unreached
            else
              let* i' := fix_addressing_mode i (es_flags (ln_in l)) in
              Ok (ln_with_stmt (SInstr i') l)
        | SDir _ => Ok l
        end in
      let* rest := fix_modes ls' in
      Ok (l' :: rest)
  end.

(** nsasm/module.cc:254-273. *)
Fixpoint layout (pc : option Z) (ls : list line) : res (list line) :=
  match ls with
  | [] => Ok []
  | l :: ls' =>
      let s := ln_stmt l in
      let* pc :=
        match s with
        | SDir d =>
            match d_name d with
            | D_org =>
                let* v := eval_opt null_ctx (d_arg d) in
                let* a := mk_address v in
                Ok (Some a)
            | _ => Ok pc
            end
        | SInstr _ => Ok pc
        end in
      match pc with
      | None =>
          if 0 <? stmt_size s then Err E_no_address
          else let* rest := layout None ls' in Ok (l :: rest)
      | Some a =>
          let l' := if stmt_is_dir D_equ s then l else ln_with_value (label_of_address a) l in
          let* rest := layout (Some (add_wrapped a (stmt_size s))) ls' in
          Ok (l' :: rest)
      end
  end.

(** nsasm/module.cc:176-276. *)
Definition run_first_pass (fuel : nat) (m : module) : res module :=
  let* ls := first_pass_loop fuel m (md_lines m) (entry_states 0 (md_lines m) []) in
  let* ls := fix_modes ls in
  let* ls := layout None ls in
  Ok (md_with_lines ls m).

(** nsasm/module.cc:304-316, from line [k], [n] lines remaining.  The external context may
    depend on the current state of this module (it is reached through the assembler). *)
Fixpoint second_pass_loop (n : nat) (k : Z) (ext : module -> lookup_ctx) (m : module)
  : res module :=
  match n with
  | O => Ok m
  | S n' =>
      match znth (md_lines m) k with
      | None => Ok m
      | Some l =>
          let* m' :=
            match ln_stmt l with
            | SDir d =>
                match d_name d, ln_value l with
                | D_equ, None =>
                    let* v := eval_opt (module_ctx m (ln_scopes l) (ext m)) (d_arg d) in
                    Ok (md_with_lines (zset k (ln_with_value v l) (md_lines m)) m)
                | _, _ => Ok m
                end
            | SInstr _ => Ok m
            end in
          second_pass_loop n' (k + 1) ext m'
      end
  end.
Definition run_second_pass (ext : module -> lookup_ctx) (m : module) : res module :=
  second_pass_loop (List.length (md_lines m)) 0 ext m.

(** nsasm/module.cc:318-326 (the locations are not modelled). *)
Definition exported_names (m : module) : list fullid :=
  map (fun nv => FullId (Some (md_name m)) (fst nv)) (md_globals m).

(** A write performed on the sink (nsasm/memory.h:43-44). *)
Definition write := (Z * list Z)%type.
(** A sink decides, from the writes accepted so far (oldest first) and the new one, whether
    Write returns an error. *)
Definition sink := list write -> write -> res unit.

(** Outcome of code that writes to a sink: the accepted writes so far, and the result. *)
Definition wres (A : Type) := (list write * res A)%type.

(** sink->Write. *)
Definition sink_write (sk : sink) (ws : list write) (w : write) : wres unit :=
  match sk ws w with
  | Ok _ => ((ws ++ [w])%list, Ok tt)
  | Err e => (ws, Err e)
  | UB u => (ws, UB u)
  | OutOfFuel => (ws, OutOfFuel)
  end.

(** nsasm/statement.cc:45-57 with nsasm/instruction.cc:417-507 and
    nsasm/directive.cc:94-108: at most one call of Write. *)
Definition stmt_assemble (sk : sink) (ws : list write) (a : Z) (c : lookup_ctx) (s : statement)
  : wres unit :=
  match stmt_bytes a c s with
  | Ok (Some b) => sink_write sk ws (a, b)
  | Ok None => (ws, Ok tt)
  | Err e => (ws, Err e)
  | UB u => (ws, UB u)
  | OutOfFuel => (ws, OutOfFuel)
  end.

Definition wbind {A B} (x : wres A) (f : list write -> A -> wres B) : wres B :=
  match x with
  | (ws, Ok a) => f ws a
  | (ws, Err e) => (ws, Err e)
  | (ws, UB u) => (ws, UB u)
  | (ws, OutOfFuel) => (ws, OutOfFuel)
  end.

(** nsasm/module.cc:372-386: record a far jump target. *)
Definition record_far_target (l : line) (i : instr) (m : module) : res module :=
  match ln_value l with
  | None => UB UB_null
  | Some v =>
      let* a := label_to_address v in
      let* t := far_branch_target i a in
      match t with
      | None => Ok m
      | Some target =>
          Ok (md_with_targets
                (om_merge flags_merge target (es_flags (ln_in l)) (md_targets m)) m)
      end
  end.

(** nsasm/module.cc:331-371: the part of the loop body before the far target is recorded. *)
Definition assemble_stmt (sk : sink) (ext : lookup_ctx) (l : line) (ws : list write) (m : module)
  : wres module :=
  let s := ln_stmt l in
  let size := stmt_size s in
  let ctx := module_ctx m (ln_scopes l) ext in
  if 0 <? size then
    match ln_value l with
    | None => (ws, Err E_logic)
    | Some v =>
        wbind (ws, label_to_address v) (fun ws a =>
        wbind (stmt_assemble sk ws a ctx s) (fun ws _ =>
        wbind (ws, claim_bytes (md_owned m) a size) (fun ws '(ok, owned) =>
        if ok then (ws, Ok (md_with_owned owned m)) else (ws, Err E_overlap))))
    end
  else
    match s with
    | SInstr _ => (ws, Ok m)
    | SDir d =>
        let set_ret (a : Z) (m : module) : module :=
          if rc_is_default (d_ret d) then m
          else md_with_rets (om_set a (d_ret d) (md_rets m)) m in
        match d_name d with
        | D_entry =>
            match ln_value l with
            | None => (ws, Err E_logic)
            | Some v => (ws, let* a := label_to_address v in Ok (set_ret a m))
            end
        | D_remote =>
            (ws,
             let* v := eval_opt ctx (d_arg d) in
             let* a := mk_address v in
             Ok (set_ret a (md_with_targets
                              (om_merge flags_merge a (d_flags d) (md_targets m)) m)))
        | _ => (ws, Ok m)
        end
    end.

(** nsasm/module.cc:330-387. *)
Fixpoint assemble_lines (sk : sink) (ext : lookup_ctx) (ls : list line) (ws : list write)
         (m : module) : wres module :=
  match ls with
  | [] => (ws, Ok m)
  | l :: ls' =>
      wbind (assemble_stmt sk ext l ws m) (fun ws m =>
      wbind (ws, match ln_stmt l with SInstr i => record_far_target l i m | SDir _ => Ok m end)
        (fun ws m => assemble_lines sk ext ls' ws m))
  end.

(** Lookup in a hash map keyed by address. *)
Fixpoint assoc_z {A} (k : Z) (l : list (Z * A)) : option A :=
  match l with
  | [] => None
  | (j, v) :: l' => if j =? k then Some v else assoc_z k l'
  end.

(** nsasm/module.cc:388-398.  The C++ iteration order of global_to_line_ is unspecified;
    here it is definition order.  It decides which of several names of one address is
    kept, and which of several errors is reported. *)
Fixpoint name_addresses (ls : list line) (gs : list (string * Z)) (acc : list (Z * string))
  : res (list (Z * string)) :=
  match gs with
  | [] => Ok acc
  | (n, i) :: gs' =>
      match znth ls i with
      | None => UB UB_oob
      | Some l =>
          match ln_value l with
          | None => Err E_no_value
          | Some v =>
              let* a := label_to_address v in
              name_addresses ls gs'
                (match assoc_z a acc with Some _ => acc | None => (acc ++ [(a, n)])%list end)
          end
      end
  end.

(** nsasm/module.cc:328-400. *)
Definition module_assemble (sk : sink) (ext : lookup_ctx) (ws : list write) (m : module)
  : wres module :=
  wbind (assemble_lines sk ext (md_lines m) ws m) (fun ws m =>
  (ws, let* names := name_addresses (md_lines m) (md_globals m) (md_addr_names m) in
       Ok (md_with_addr_names names m))).

(** nsasm/module.cc:419-434. *)
Definition value_for_name (m : module) (id : fullid) : res Z :=
  match fi_module id with
  | Some mn =>
      if String.eqb mn (md_name m) then
        match assoc_string (fi_name id) (md_globals m) with
        | None => Err E_logic
        | Some i =>
            match znth (md_lines m) i with
            | None => UB UB_oob
            | Some l => match ln_value l with Some v => Ok v | None => Err E_logic end
            end
        end
      else Err E_logic
  | None => Err E_logic
  end.

(** nsasm/module.cc:436-446. *)
Definition name_for_address (m : module) (a : Z) : option fullid :=
  if String.eqb (md_name m) "" then None
  else match assoc_z a (md_addr_names m) with
       | Some n => Some (FullId (Some (md_name m)) n)
       | None => None
       end.
