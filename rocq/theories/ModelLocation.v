(** Where errors are reported.  Transcribes nsasm/location.h, the location part of
    nsasm/error.{h,cc}, and every SetLocation / NSASM_RETURN_IF_ERROR_WITH_LOCATION of
    nsasm/module.cc and nsasm/assembler.cc: the assembler once more, with errors that carry
    a location.  Messages are still represented by an error code. *)
From Verif Require Import Base ModelNumeric ModelAddress ModelMnemonic ModelExpr ModelAMode
  ModelOpcode ModelState ModelInstr ModelToken ModelStatement ModelParse ModelMap ModelRanges
  ModelModule ModelAssembler.
Open Scope string_scope.
Open Scope Z_scope.

(** nsasm/location.h:52-60: offset_ and offset_type_. *)
Inductive offset := NoOffset | AtLine (n : Z) | AtAddress (a : Z).
Record location := Loc { loc_path : string; loc_offset : offset }.

(** nsasm/location.h:14. *)
Definition no_location : location := Loc "" NoOffset.

(** nsasm/location.h:28-36. *)
Definition loc_update (l r : location) : location :=
  Loc (if String.eqb (loc_path r) "" then loc_path l else loc_path r)
      (match loc_offset r with NoOffset => loc_offset l | o => o end).

(** nsasm/location.h:38-51.  An address is below 2^24, so "%06x" prints six digits. *)
Definition loc_to_string (l : location) : string :=
  if String.eqb (loc_path l) "" then ""
  else match loc_offset l with
       | NoOffset => loc_path l
       | AtLine n => loc_path l ++ ":" ++ dec_string n
       | AtAddress a => loc_path l ++ ":0x" ++ hex_fixed 6 a
       end.

(** nsasm/error.cc:7-13, the message being given. *)
Definition error_to_string (l : location) (message : string) : string :=
  if String.eqb (loc_to_string l) "" then message else loc_to_string l ++ ": " ++ message.

(** ErrorOr<T> with the location of the error, nsasm/error.h:13-45. *)
Inductive lres (A : Type) :=
| LOk (a : A)
| LErr (e : err) (l : location)
| LUB (u : ub)
| LFuel.
Arguments LOk {A} a.
Arguments LErr {A} e l.
Arguments LUB {A} u.
Arguments LFuel {A}.

(** NSASM_RETURN_IF_ERROR, nsasm/error.h:90-96. *)
Definition lbind {A B} (r : lres A) (f : A -> lres B) : lres B :=
  match r with
  | LOk a => f a
  | LErr e l => LErr e l
  | LUB u => LUB u
  | LFuel => LFuel
  end.
Notation "'let@' x ':=' r 'in' k" := (lbind r (fun x => k))
  (at level 200, x pattern, r at level 100, k at level 200, right associativity).

(** nsasm/error.h:18-21. *)
Definition set_location {A} (l : location) (r : lres A) : lres A :=
  match r with LErr e l0 => LErr e (loc_update l0 l) | r => r end.

(** The result of a function that gives its errors no location: Execute, ExecuteBranch,
    FixAddressingMode, Evaluate, Lookup and, but for the sink, Assemble. *)
Definition bare {A} (r : res A) : lres A :=
  match r with
  | Ok a => LOk a
  | Err e => LErr e no_location
  | UB u => LUB u
  | OutOfFuel => LFuel
  end.

(** NSASM_RETURN_IF_ERROR_WITH_LOCATION, nsasm/error.h:98-104, on such a function. *)
Definition at_loc {A} (l : location) (r : res A) : lres A := set_location l (bare r).

(** A module (nsasm/module.h:113-122) with path_ and the location of each statement
    (nsasm/statement.cc:25-33); the location of a statement never changes. *)
Record lmodule := LModule { lm_path : string; lm_mod : module; lm_locs : list location }.
Definition lm_with (m : module) (lm : lmodule) : lmodule :=
  LModule (lm_path lm) m (lm_locs lm).

(** statement.Location() of statement [k]. *)
Definition loc_at (locs : list location) (k : Z) : location :=
  match znth locs k with Some l => l | None => no_location end.

(** nsasm/token.cc:202-203, 246 and the constructor calls there: Tokenize gives its errors and
    all its tokens the location it is passed.  nsasm/parse.cc: the errors of Parse carry the
    location of a token, except those of lines 243, 426, 436, 565 and 584. *)
Definition parse_located (l : location) (ts : list token) : lres (list parsed) :=
  match parse ts with
  | Err E_logic => LErr E_logic no_location
  | Err E_convention => LErr E_convention no_location
  | r => at_loc l r
  end.

(** nsasm/module.cc:114-159.  A statement gets the location of a token of its line,
    nsasm/parse.cc:555, 568, 587. *)
Fixpoint lload_entities (l : location) (ld : loader) (locs : list location) (es : list parsed)
  : lres (loader * list location) :=
  match es with
  | [] => LOk (ld, locs)
  | e :: es' =>
      let@ ld := at_loc l (load_entity ld e) in
      lload_entities l ld (match e with PStmt _ => (locs ++ [l])%list | PLabel _ _ => locs end) es'
  end.

(** nsasm/module.cc:105-160; [l] is loc, [n] is line_number. *)
Fixpoint lload_lines (l : location) (n : Z) (ld : loader) (locs : list location)
         (file : list string) : lres (loader * list location) :=
  match file with
  | [] => LOk (ld, locs)
  | s :: rest =>
      let n := n + 1 in
      let l := loc_update l (Loc "" (AtLine n)) in
      let@ ts := at_loc l (tokenize s) in
      let@ es := parse_located l ts in
      let@ (ld, locs) := lload_entities l ld locs es in
      lload_lines l n ld locs rest
  end.

(** nsasm/module.cc:77-174. *)
Definition lload_asm_file (path : string) (file : list string) : lres lmodule :=
  let@ (ld, locs) := lload_lines (Loc path NoOffset) 0 (Loader empty_module [] []) [] file in
  match ld_scopes ld with
  | k :: _ => at_loc (loc_at locs k) (Err E_scope)
  | [] => LOk (LModule path (md_with_deps (compute_deps (ld_mod ld)) (ld_mod ld)) locs)
  end.

(** nsasm/module.cc:197-237, one iteration. *)
Definition lfirst_pass_step (m : module) (locs : list location) (ls : list line)
           (st : omap estate) : lres (list line * omap estate) :=
  match st with
  | [] => LOk (ls, st)
  | (k, cur) :: rest =>
      if k =? zlen ls then bare (Err E_past_end)
      else match znth ls k with
      | None => LUB UB_oob
      | Some l =>
          if ln_reached l && es_eqb (ln_in l) cur then LOk (ls, rest)
          else
            let ls' := zset k (ln_visit cur l) ls in
            let s := ln_stmt l in
            let@ next := at_loc (loc_at locs k) (stmt_execute s cur) in
            let st1 := if stmt_is_exit s then st else add_state (k + 1) next st in
            match s with
            | SInstr i =>
                if is_local_branch i then
                  match simple_identifier_opt (i_arg1 i) with
                  | None => bare (Err E_logic)
                  | Some target =>
                      match local_index m target (ln_scopes l) with
                      | Ok idx =>
                          let@ next := at_loc (loc_at locs k) (execute_branch i cur) in
                          LOk (ls', add_state idx next st1)
                      | _ => at_loc (loc_at locs k) (Err E_no_target)
                      end
                  end
                else LOk (ls', st1)
            | SDir _ => LOk (ls', st1)
            end
      end
  end.

Fixpoint lfirst_pass_loop (fuel : nat) (m : module) (locs : list location) (ls : list line)
         (st : omap estate) : lres (list line) :=
  match st with
  | [] => LOk ls
  | _ =>
      match fuel with
      | O => LFuel
      | S f => let@ (ls', st') := lfirst_pass_step m locs ls st in
               lfirst_pass_loop f m locs ls' st'
      end
  end.

(** nsasm/module.cc:241-251, from statement [k] on. *)
Fixpoint lfix_modes (k : Z) (locs : list location) (ls : list line) : lres (list line) :=
  match ls with
  | [] => LOk []
  | l :: ls' =>
      let@ l' :=
        match ln_stmt l with
        | SInstr i =>
            if negb (ln_reached l) then at_loc (loc_at locs k) (Err E_unreached)
            else
              let@ i' := at_loc (loc_at locs k) (fix_addressing_mode i (es_flags (ln_in l))) in
              LOk (ln_with_stmt (SInstr i') l)
        | SDir _ => LOk l
        end in
      let@ rest := lfix_modes (k + 1) locs ls' in
      LOk (l' :: rest)
  end.

(** nsasm/module.cc:254-273, from statement [k] on. *)
Fixpoint llayout (k : Z) (locs : list location) (pc : option Z) (ls : list line)
  : lres (list line) :=
  match ls with
  | [] => LOk []
  | l :: ls' =>
      let s := ln_stmt l in
      let@ pc :=
        match s with
        | SDir d =>
            match d_name d with
            | D_org =>
                let@ v := at_loc (loc_at locs k) (eval_opt null_ctx (d_arg d)) in
                let@ a := bare (mk_address v) in
                LOk (Some a)
            | _ => LOk pc
            end
        | SInstr _ => LOk pc
        end in
      match pc with
      | None =>
          if 0 <? stmt_size s then at_loc (loc_at locs k) (Err E_no_address)
          else let@ rest := llayout (k + 1) locs None ls' in LOk (l :: rest)
      | Some a =>
          let l' := if stmt_is_dir D_equ s then l else ln_with_value (label_of_address a) l in
          let@ rest := llayout (k + 1) locs (Some (add_wrapped a (stmt_size s))) ls' in
          LOk (l' :: rest)
      end
  end.

(** nsasm/module.cc:176-276. *)
Definition lrun_first_pass (fuel : nat) (lm : lmodule) : lres lmodule :=
  let m := lm_mod lm in
  let@ ls := lfirst_pass_loop fuel m (lm_locs lm) (md_lines m) (entry_states 0 (md_lines m) []) in
  let@ ls := lfix_modes 0 (lm_locs lm) ls in
  let@ ls := llayout 0 (lm_locs lm) None ls in
  LOk (lm_with (md_with_lines ls m) lm).

(** nsasm/module.cc:304-316. *)
Fixpoint lsecond_pass_loop (n : nat) (k : Z) (ext : module -> lookup_ctx)
         (locs : list location) (m : module) : lres module :=
  match n with
  | O => LOk m
  | S n' =>
      match znth (md_lines m) k with
      | None => LOk m
      | Some l =>
          let@ m' :=
            match ln_stmt l with
            | SDir d =>
                match d_name d, ln_value l with
                | D_equ, None =>
                    let@ v := at_loc (loc_at locs k)
                                (eval_opt (module_ctx m (ln_scopes l) (ext m)) (d_arg d)) in
                    LOk (md_with_lines (zset k (ln_with_value v l) (md_lines m)) m)
                | _, _ => LOk m
                end
            | SInstr _ => LOk m
            end in
          lsecond_pass_loop n' (k + 1) ext locs m'
      end
  end.
Definition lrun_second_pass (ext : module -> lookup_ctx) (lm : lmodule) : lres lmodule :=
  let@ m := lsecond_pass_loop (List.length (md_lines (lm_mod lm))) 0 ext (lm_locs lm) (lm_mod lm) in
  LOk (lm_with m lm).

(** nsasm/module.cc:318-326: the number in the location is node.second, the index of a
    statement. *)
Definition lexported_names (lm : lmodule) : list (fullid * location) :=
  map (fun nv => (FullId (Some (md_name (lm_mod lm))) (fst nv),
                  Loc (lm_path lm) (AtLine (snd nv)))) (md_globals (lm_mod lm)).

(** A sink (see [ModelModule.sink]) whose errors may carry a location. *)
Definition lsink := list write -> write -> lres unit.
Definition lwres (A : Type) := (list write * lres A)%type.
Definition lwbind {A B} (x : lwres A) (f : list write -> A -> lwres B) : lwres B :=
  match x with
  | (ws, LOk a) => f ws a
  | (ws, LErr e l) => (ws, LErr e l)
  | (ws, LUB u) => (ws, LUB u)
  | (ws, LFuel) => (ws, LFuel)
  end.

(** sink->Write. *)
Definition lsink_write (sk : lsink) (ws : list write) (w : write) : lwres unit :=
  (match sk ws w with LOk _ => (ws ++ [w])%list | _ => ws end,
   let@ _ := sk ws w in LOk tt).

(** nsasm/statement.cc:45-57. *)
Definition lstmt_assemble (sk : lsink) (ws : list write) (a : Z) (c : lookup_ctx)
           (s : statement) : lwres unit :=
  match stmt_bytes a c s with
  | Ok (Some b) => lsink_write sk ws (a, b)
  | r => (ws, let@ _ := bare r in LOk tt)
  end.

(** nsasm/module.cc:331-371; [l0] is line.statement.Location(). *)
Definition lassemble_stmt (sk : lsink) (ext : lookup_ctx) (l0 : location) (l : line)
           (ws : list write) (m : module) : lwres module :=
  let s := ln_stmt l in
  let size := stmt_size s in
  let ctx := module_ctx m (ln_scopes l) ext in
  if 0 <? size then
    match ln_value l with
    | None => (ws, at_loc l0 (Err E_logic))
    | Some v =>
        lwbind (ws, bare (label_to_address v)) (fun ws a =>
        lwbind (let (ws, r) := lstmt_assemble sk ws a ctx s in (ws, set_location l0 r))
          (fun ws _ =>
        lwbind (ws, bare (claim_bytes (md_owned m) a size)) (fun ws '(ok, owned) =>
        if ok then (ws, LOk (md_with_owned owned m)) else (ws, at_loc l0 (Err E_overlap)))))
    end
  else
    match s with
    | SInstr _ => (ws, LOk m)
    | SDir d =>
        let set_ret (a : Z) (m : module) : module :=
          if rc_is_default (d_ret d) then m
          else md_with_rets (om_set a (d_ret d) (md_rets m)) m in
        match d_name d with
        | D_entry =>
            match ln_value l with
            | None => (ws, at_loc l0 (Err E_logic))
            | Some v => (ws, let@ a := bare (label_to_address v) in LOk (set_ret a m))
            end
        | D_remote =>
            (ws,
             let@ v := at_loc l0 (eval_opt ctx (d_arg d)) in
             let@ a := bare (mk_address v) in
             LOk (set_ret a (md_with_targets
                               (om_merge flags_merge a (d_flags d) (md_targets m)) m)))
        | _ => (ws, LOk m)
        end
    end.

(** nsasm/module.cc:330-387, from statement [k] on. *)
Fixpoint lassemble_lines (sk : lsink) (ext : lookup_ctx) (k : Z) (locs : list location)
         (ls : list line) (ws : list write) (m : module) : lwres module :=
  match ls with
  | [] => (ws, LOk m)
  | l :: ls' =>
      lwbind (lassemble_stmt sk ext (loc_at locs k) l ws m) (fun ws m =>
      lwbind (ws, bare match ln_stmt l with SInstr i => record_far_target l i m | SDir _ => Ok m end)
        (fun ws m => lassemble_lines sk ext (k + 1) locs ls' ws m))
  end.

(** nsasm/module.cc:388-398. *)
Fixpoint lname_addresses (locs : list location) (ls : list line) (gs : list (string * Z))
         (acc : list (Z * string)) : lres (list (Z * string)) :=
  match gs with
  | [] => LOk acc
  | (n, i) :: gs' =>
      match znth ls i with
      | None => LUB UB_oob
      | Some l =>
          match ln_value l with
          | None => at_loc (loc_at locs i) (Err E_no_value)
          | Some v =>
              let@ a := bare (label_to_address v) in
              lname_addresses locs ls gs'
                (match assoc_z a acc with Some _ => acc | None => (acc ++ [(a, n)])%list end)
          end
      end
  end.

(** nsasm/module.cc:328-400. *)
Definition lmodule_assemble (sk : lsink) (ext : lookup_ctx) (ws : list write) (lm : lmodule)
  : lwres lmodule :=
  let locs := lm_locs lm in
  lwbind (lassemble_lines sk ext 0 locs (md_lines (lm_mod lm)) ws (lm_mod lm)) (fun ws m =>
  (ws, let@ names := lname_addresses locs (md_lines m) (md_globals m) (md_addr_names m) in
       LOk (lm_with (md_with_addr_names names m) lm))).

(** nsasm/assembler.cc:42-51.  [names] maps an exported name to the index of its module and
    to the location given for it. *)
Fixpoint ladd_exports (i : Z) (ids : list (fullid * location))
         (names : list (fullid * (Z * location))) : lres (list (fullid * (Z * location))) :=
  match ids with
  | [] => LOk names
  | (id, l) :: rest =>
      match assoc_id id names with
      | Some (_, first) => at_loc first (Err E_duplicate)
      | None => ladd_exports i rest (names ++ [(id, (i, l))])%list
      end
  end.

(** nsasm/assembler.cc:27-54. *)
Fixpoint lorder_sweep (i : Z) (ms : list lmodule) (order : list Z)
         (names : list (fullid * (Z * location))) (found : bool)
  : lres (list Z * list (fullid * (Z * location)) * bool) :=
  match ms with
  | [] => LOk (order, names, found)
  | m :: ms' =>
      if existsb (Z.eqb i) order then lorder_sweep (i + 1) ms' order names found
      else if forallb (fun d => has_id d names) (md_deps (lm_mod m)) then
        let@ names := ladd_exports i (lexported_names m) names in
        lorder_sweep (i + 1) ms' (order ++ [i])%list names true
      else lorder_sweep (i + 1) ms' order names found
  end.

(** nsasm/assembler.cc:25-60. *)
Fixpoint lorder_loop (fuel : nat) (ms : list lmodule) (order : list Z)
         (names : list (fullid * (Z * location)))
  : lres (list Z * list (fullid * (Z * location))) :=
  if zlen order <? zlen ms then
    match fuel with
    | O => LFuel
    | S f =>
        let@ (order', names', found) := lorder_sweep 0 ms order names false in
        if found then lorder_loop f ms order' names' else bare (Err E_cycle)
    end
  else LOk (order, names).

(** nsasm/assembler.cc:19-61. *)
Definition lfind_assembly_order (ms : list lmodule)
  : lres (list Z * list (fullid * (Z * location))) :=
  lorder_loop (List.length ms) ms [] [].

(** nsasm/assembler.cc:63-83: the modules and the map behind AssemblerLookupContext. *)
Definition plain_names (names : list (fullid * (Z * location))) : list (fullid * Z) :=
  map (fun x => (fst x, fst (snd x))) names.

(** nsasm/assembler.cc:90-92. *)
Fixpoint lfirst_passes (fuel : nat) (order : list Z) (ms : list lmodule) : lres (list lmodule) :=
  match order with
  | [] => LOk ms
  | i :: rest =>
      match znth ms i with
      | None => LUB UB_oob
      | Some m =>
          let@ m' := lrun_first_pass fuel m in
          lfirst_passes fuel rest (zset i m' ms)
      end
  end.

(** nsasm/assembler.cc:97-99. *)
Fixpoint lsecond_passes (order : list Z) (names : list (fullid * Z)) (ms : list lmodule)
  : lres (list lmodule) :=
  match order with
  | [] => LOk ms
  | i :: rest =>
      match znth ms i with
      | None => LUB UB_oob
      | Some m =>
          let@ m' := lrun_second_pass
                       (fun cur => assembler_ctx (zset i cur (map lm_mod ms)) names) m in
          lsecond_passes rest names (zset i m' ms)
      end
  end.

(** nsasm/assembler.cc:102-109. *)
Fixpoint lassemble_modules (sk : lsink) (order : list Z) (names : list (fullid * Z))
         (ws : list write) (ms : list lmodule) (rm : rangemap Z)
  : lwres (list lmodule * rangemap Z) :=
  match order with
  | [] => (ws, LOk (ms, rm))
  | i :: rest =>
      match znth ms i with
      | None => (ws, LUB UB_oob)
      | Some m =>
          lwbind (lmodule_assemble sk (assembler_ctx (map lm_mod ms) names) ws m) (fun ws m' =>
          let (ok, rm') := rm_insert rm (md_owned (lm_mod m')) i in
          if ok then lassemble_modules sk rest names ws (zset i m' ms) rm'
          else (ws, bare (Err E_overlap)))
      end
  end.

(** nsasm/assembler.cc:12-17, 163-170. *)
Fixpoint lload_files (files : list (string * list string)) : lres (list lmodule) :=
  match files with
  | [] => LOk []
  | (path, f) :: rest =>
      let@ m := lload_asm_file path f in
      let@ ms := lload_files rest in
      LOk (m :: ms)
  end.

(** nsasm/assembler.cc:85-112, 163-175. *)
Definition lassemble (fuel : nat) (sk : lsink) (files : list (string * list string))
  : lwres assembler :=
  lwbind ([], lload_files files) (fun ws ms =>
  lwbind (ws, lfind_assembly_order ms) (fun ws '(order, lnames) =>
  let names := plain_names lnames in
  lwbind (ws, lfirst_passes fuel order ms) (fun ws ms =>
  lwbind (ws, lsecond_passes order names ms) (fun ws ms =>
  lwbind (lassemble_modules sk order names ws ms (RangeMap [] [])) (fun ws '(ms, rm) =>
  (ws, LOk (Assembler (map lm_mod ms) rm names))))))).
