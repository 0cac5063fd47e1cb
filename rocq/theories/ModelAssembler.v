(** The assembler.  Transcribes nsasm/assembler.{h,cc}. *)
From Verif Require Import Base ModelNumeric ModelAddress ModelExpr ModelState ModelStatement
  ModelMap ModelRanges ModelModule.
Open Scope string_scope.
Open Scope Z_scope.

(** nsasm/assembler.h:59-62.  A Module* is the index of the module in modules_. *)
Record assembler := Assembler {
  as_mods : list module; as_map : rangemap Z; as_names : list (fullid * Z) }.

(** nsasm/assembler.h:21. *)
Definition empty_assembler : assembler := Assembler [] (RangeMap [] []) [].

(** nsasm/assembler.cc:8-17. *)
Definition add_asm_file (a : assembler) (file : list string) : res assembler :=
  let* m := load_asm_file file in
  Ok (Assembler (as_mods a ++ [m])%list (as_map a) (as_names a)).

(** Hash map lookup keyed by FullIdentifier. *)
Fixpoint assoc_id {A} (id : fullid) (l : list (fullid * A)) : option A :=
  match l with
  | [] => None
  | (k, v) :: l' => if fullid_eqb k id then Some v else assoc_id id l'
  end.
Definition has_id {A} (id : fullid) (l : list (fullid * A)) : bool :=
  match assoc_id id l with Some _ => true | None => false end.

(** nsasm/assembler.cc:42-51: register the exports of module [i].  exported_names and
    name_to_module_map_ have the same keys (the latter starts empty: Assemble can only be
    called once, assembler.h:27) and are one list here. *)
Fixpoint add_exports (i : Z) (ids : list fullid) (names : list (fullid * Z))
  : res (list (fullid * Z)) :=
  match ids with
  | [] => Ok names
  | id :: rest =>
      if has_id id names then Err E_duplicate else add_exports i rest (names ++ [(id, i)])%list
  end.

(** nsasm/assembler.cc:27-54: one sweep over the modules, from index [i].  [order] is the
    order so far (also playing the role of already_inserted). *)
Fixpoint order_sweep (i : Z) (ms : list module) (order : list Z) (names : list (fullid * Z))
         (found : bool) : res (list Z * list (fullid * Z) * bool) :=
  match ms with
  | [] => Ok (order, names, found)
  | m :: ms' =>
      if existsb (Z.eqb i) order then order_sweep (i + 1) ms' order names found
      else if forallb (fun d => has_id d names) (md_deps m) then
        let* names := add_exports i (exported_names m) names in
        order_sweep (i + 1) ms' (order ++ [i])%list names true
      else order_sweep (i + 1) ms' order names found
  end.

(** nsasm/assembler.cc:25-60.  Every sweep adds a module or fails. *)
Fixpoint order_loop (fuel : nat) (ms : list module) (order : list Z) (names : list (fullid * Z))
  : res (list Z * list (fullid * Z)) :=
  if zlen order <? zlen ms then
    match fuel with
    | O => OutOfFuel
    | S f =>
        let* (order', names', found) := order_sweep 0 ms order names false in
        if found then order_loop f ms order' names' else Err E_cycle
    end
  else Ok (order, names).

(** nsasm/assembler.cc:19-61. *)
Definition find_assembly_order (ms : list module) : res (list Z * list (fullid * Z)) :=
  order_loop (List.length ms) ms [] [].

(** nsasm/assembler.cc:63-83. *)
Definition assembler_ctx (ms : list module) (names : list (fullid * Z)) : lookup_ctx :=
  fun id =>
    if negb (fi_qualified id) then Err E_logic
    else match assoc_id id names with
         | None => Err E_undefined
         | Some i =>
             match znth ms i with
             | None => UB UB_oob
             | Some m => value_for_name m id
             end
         end.

(** nsasm/assembler.cc:90-92. *)
Fixpoint first_passes (fuel : nat) (order : list Z) (ms : list module) : res (list module) :=
  match order with
  | [] => Ok ms
  | i :: rest =>
      match znth ms i with
      | None => UB UB_oob
      | Some m =>
          let* m' := run_first_pass fuel m in
          first_passes fuel rest (zset i m' ms)
      end
  end.

(** nsasm/assembler.cc:97-99. *)
Fixpoint second_passes (order : list Z) (names : list (fullid * Z)) (ms : list module)
  : res (list module) :=
  match order with
  | [] => Ok ms
  | i :: rest =>
      match znth ms i with
      | None => UB UB_oob
      | Some m =>
          let* m' := run_second_pass (fun cur => assembler_ctx (zset i cur ms) names) m in
          second_passes rest names (zset i m' ms)
      end
  end.

(** nsasm/assembler.cc:102-109. *)
Fixpoint assemble_modules (sk : sink) (order : list Z) (names : list (fullid * Z))
         (ws : list write) (ms : list module) (rm : rangemap Z)
  : wres (list module * rangemap Z) :=
  match order with
  | [] => (ws, Ok (ms, rm))
  | i :: rest =>
      match znth ms i with
      | None => (ws, UB UB_oob)
      | Some m =>
          wbind (module_assemble sk (assembler_ctx ms names) ws m) (fun ws m' =>
          let (ok, rm') := rm_insert rm (md_owned m') i in
          if ok then assemble_modules sk rest names ws (zset i m' ms) rm'
          else (ws, Err E_overlap))
      end
  end.

(** nsasm/assembler.cc:85-112. *)
Definition assembler_assemble (fuel : nat) (sk : sink) (a : assembler) : wres assembler :=
  wbind ([], find_assembly_order (as_mods a)) (fun ws '(order, names) =>
  wbind (ws, first_passes fuel order (as_mods a)) (fun ws ms =>
  wbind (ws, second_passes order names ms) (fun ws ms =>
  wbind (assemble_modules sk order names ws ms (as_map a)) (fun ws '(ms, rm) =>
  (ws, Ok (Assembler ms rm names)))))).

(** nsasm/assembler.cc:163-170. *)
Fixpoint add_files (a : assembler) (files : list (list string)) : res assembler :=
  match files with
  | [] => Ok a
  | f :: rest => let* a := add_asm_file a f in add_files a rest
  end.
Definition assemble (fuel : nat) (sk : sink) (files : list (list string)) : wres assembler :=
  wbind ([], add_files empty_assembler files) (fun _ a => assembler_assemble fuel sk a).

(** nsasm/assembler.h:33-35. *)
Definition assembler_contains (a : assembler) (addr : Z) : bool := rm_contains (as_map a) addr.

(** nsasm/assembler.cc:114-123. *)
Fixpoint assembler_name_for_address (ms : list module) (addr : Z) : option fullid :=
  match ms with
  | [] => None
  | m :: ms' =>
      match name_for_address m addr with
      | Some n => Some n
      | None => assembler_name_for_address ms' addr
      end
  end.

(** nsasm/assembler.cc:125-143. *)
Definition jump_targets (a : assembler) : omap flags :=
  fold_left (fun ret m =>
    fold_left (fun ret kv =>
      if assembler_contains a (fst kv) then ret
      else om_merge flags_merge (fst kv) (snd kv) ret) (md_targets m) ret) (as_mods a) [].

(** nsasm/assembler.cc:145-154: map.insert keeps existing entries. *)
Definition jump_target_return_conventions (a : assembler) : omap retconv :=
  fold_left (fun ret m =>
    fold_left (fun ret kv => om_insert (fst kv) (snd kv) ret) (md_rets m) ret) (as_mods a) [].
