(** The disassembler.  Transcribes nsasm/disassemble.{h,cc}. *)
From Verif Require Import Base ModelNumeric ModelAddress ModelMnemonic ModelExpr ModelAMode
  ModelOpcode ModelState ModelInstr ModelMap ModelRom.
Open Scope string_scope.
Open Scope Z_scope.

(** nsasm/disassemble.h:16-22. *)
Record dinstr := DInstr {
  di_label : string; di_instr : instr; di_entry : bool; di_cur : estate; di_next : estate }.

(** nsasm/disassemble.h:62-66 (src_ is a parameter of the functions below).  entry_points_
    is a sorted set, represented as a map to unit.  current_sym_ is unbounded. *)
Record disassembler := Disassembler {
  ds_entries : omap unit; ds_map : omap dinstr; ds_rets : omap retconv; ds_sym : Z }.

(** nsasm/disassemble.h:28-29. *)
Definition new_disassembler : disassembler := Disassembler [] [] [] 0.
(** nsasm/disassemble.h:52-55. *)
Definition add_target_return_conventions (r : omap retconv) (d : disassembler) : disassembler :=
  Disassembler (ds_entries d) (ds_map d) r (ds_sym d).

(** Local variables of Disassemble, nsasm/disassemble.cc:18, 39, 57, 69, and current_sym_. *)
Record dwork := DWork {
  dw_new : omap dinstr; dw_labels : omap string; dw_stack : omap estate; dw_far : omap flags;
  dw_sym : Z }.

(** nsasm/disassemble.cc:19-36: the instruction found, and new_disassembly after a possible
    copy. *)
Definition get_instruction (old new : omap dinstr) (a : Z) : option dinstr * omap dinstr :=
  match om_find a new with
  | Some d => (Some d, new)
  | None =>
      match om_find a old with
      | Some d => (Some d, om_set a d new)
      | None => (None, new)
      end
  end.

(** nsasm/disassemble.h:60. *)
Definition gensym (n : Z) : string := String.append "gensym" (dec_string n).

(** nsasm/disassemble.cc:40-53. *)
Definition get_label (old : omap dinstr) (w : dwork) (a : Z) : string * dwork :=
  match om_find a (dw_labels w) with
  | Some s => (s, w)
  | None =>
      let fresh :=
        let s := gensym (dw_sym w + 1) in
        (s, DWork (dw_new w) (om_set a s (dw_labels w)) (dw_stack w) (dw_far w)
                  (dw_sym w + 1)) in
      match om_find a old with
      | Some d => if String.eqb (di_label d) "" then fresh else (di_label d, w)
      | None => fresh
      end
  end.

(** nsasm/disassemble.cc:58-66. *)
Definition dw_push (a : Z) (s : estate) (w : dwork) : dwork :=
  DWork (dw_new w) (dw_labels w) (om_merge es_merge a s (dw_stack w)) (dw_far w) (dw_sym w).
(** nsasm/disassemble.cc:70-78. *)
Definition dw_add_far (a : Z) (s : estate) (w : dwork) : dwork :=
  DWork (dw_new w) (dw_labels w) (dw_stack w) (om_merge flags_merge a (es_flags s) (dw_far w))
        (dw_sym w).
Definition dw_set_new (n : omap dinstr) (w : dwork) : dwork :=
  DWork n (dw_labels w) (dw_stack w) (dw_far w) (dw_sym w).
Definition dw_set_stack (st : omap estate) (w : dwork) : dwork :=
  DWork (dw_new w) (dw_labels w) st (dw_far w) (dw_sym w).

Definition i_with_ret (r : retconv) (i : instr) : instr :=
  Instr (i_mnem i) (i_suffix i) (i_mode i) (i_arg1 i) (i_arg2 i) r.
Definition i_with_arg1 (e : option expr) (i : instr) : instr :=
  Instr (i_mnem i) (i_suffix i) (i_mode i) e (i_arg2 i) (i_ret i).
Definition i_with_suffix (s : suffix) (i : instr) : instr :=
  Instr (i_mnem i) s (i_mode i) (i_arg1 i) (i_arg2 i) (i_ret i).
Definition i_with_mnem (m : mnemonic) (i : instr) : instr :=
  Instr m (i_suffix i) (i_mode i) (i_arg1 i) (i_arg2 i) (i_ret i).

(** *instruction->arg1.Evaluate(NullLookupContext()), nsasm/disassemble.cc:129, 194:
    dereferencing an error aborts. *)
Definition branch_offset (i : instr) : res Z :=
  match eval_opt null_ctx (i_arg1 i) with
  | Ok v => Ok v
  | Err _ => UB UB_null
  | UB u => UB u
  | OutOfFuel => OutOfFuel
  end.

(** nsasm/disassemble.cc:96-150: first visit of [pc].  A failure of the outcome keeps the
    symbol counter, which is a member: the work state is returned next to the outcome. *)
Definition visit_new (src : source) (rets : omap retconv) (old : omap dinstr) (pc : Z)
           (cur : estate) (w : dwork) : dwork * res dwork :=
  match (let* bytes := src pc 4 in
         let* i := decode bytes (es_flags cur) in
         let* next := execute i cur in
         Ok (i, next)) with
  | Err e => (w, Err e)
  | UB u => (w, UB u)
  | OutOfFuel => (w, OutOfFuel)
  | Ok (i, next) =>
      let next_pc := add_wrapped pc (instruction_length (i_mode i)) in
      match far_branch_target i pc with
      | Err e => (w, Err e)
      | UB u => (w, UB u)
      | OutOfFuel => (w, OutOfFuel)
      | Ok far =>
          let '(i, next, w) :=
            match far with
            | None => (i, next, w)
            | Some target =>
                let w := dw_add_far target next w in
                let i :=
                  match i_mnem i with
                  | M_jsr | M_jsl =>
                      match om_find target rets with
                      | Some r => i_with_ret r i
                      | None => i
                      end
                  | _ => i
                  end in
                (i, rc_apply (i_ret i) next, w)
            end in
          let finish (i : instr) (w : dwork) : dwork * res dwork :=
            let w := dw_set_new (om_set pc (DInstr "" i false cur next) (dw_new w)) w in
            let w := if is_exit_instruction i then w else dw_push next_pc next w in
            (w, Ok w) in
          if is_local_branch i then
            match branch_offset i with
            | Err e => (w, Err e)
            | UB u => (w, UB u)
            | OutOfFuel => (w, OutOfFuel)
            | Ok value =>
                let target := add_wrapped next_pc value in
                let (lab, w) := get_label old w target in
                let i := i_with_arg1 (apply_label lab (i_arg1 i)) i in
                match execute_branch i cur with
                | Err e => (w, Err e)
                | UB u => (w, UB u)
                | OutOfFuel => (w, OutOfFuel)
                | Ok bs => finish i (dw_push target bs w)
                end
            end
          else finish i w
      end
  end.

(** nsasm/disassemble.cc:151-199: a visit of [pc], which holds [d] already.  Line 163
    dereferences the result of Read without a check. *)
Definition visit_again (src : source) (pc : Z) (cur : estate) (d : dinstr) (w : dwork)
  : res dwork :=
  let combined := es_merge cur (di_cur d) in
  if es_eqb combined (di_cur d) then Ok w
  else
    let* bytes := match src pc 4 with Err _ => UB UB_null | r => r end in
    let* _ := decode bytes (es_flags combined) in
    let i := di_instr d in
    let* next := execute i combined in
    let w := dw_set_new (om_set pc (DInstr (di_label d) i (di_entry d) combined next) (dw_new w)) w in
    let next_pc := add_wrapped pc (instruction_length (i_mode i)) in
    let w := if is_exit_instruction i then w else dw_push next_pc next w in
    let* far := far_branch_target i pc in
    let w := match far with Some t => dw_add_far t next w | None => w end in
    if is_local_branch i then
      let* bs := execute_branch i cur in
      let* value := branch_offset i in
      Ok (dw_push (add_wrapped next_pc value) bs w)
    else Ok w.

(** One iteration of nsasm/disassemble.cc:87-200 on a non-empty worklist. *)
Definition disasm_step (src : source) (rets : omap retconv) (old : omap dinstr) (w : dwork)
  : dwork * res dwork :=
  match dw_stack w with
  | [] => (w, Ok w)
  | (pc, cur) :: rest =>
      let w := dw_set_stack rest w in
      let (found, new) := get_instruction old (dw_new w) pc in
      let w := dw_set_new new w in
      match found with
      | None => visit_new src rets old pc cur w
      | Some d => (w, visit_again src pc cur d w)
      end
  end.

(** nsasm/disassemble.cc:87-200. *)
Fixpoint disasm_loop (fuel : nat) (src : source) (rets : omap retconv) (old : omap dinstr)
         (w : dwork) : dwork * res dwork :=
  match dw_stack w with
  | [] => (w, Ok w)
  | _ =>
      match fuel with
      | O => (w, OutOfFuel)
      | S f =>
          match disasm_step src rets old w with
          | (_, Ok w') => disasm_loop f src rets old w'
          | (w', r) => (w', r)
          end
      end
  end.

(** nsasm/disassemble.cc:205-223. *)
Definition add_suffix (d : dinstr) : dinstr :=
  let i := di_instr d in
  let f := es_flags (di_cur d) in
  let by_bit (b : bitstate) (i : instr) : instr :=
    match b with
    | B_on => i_with_suffix S_b i
    | B_off => i_with_suffix S_w i
    | _ => i
    end in
  let i := match flag_controlling_size (i_mnem i) with
           | UsesM => by_bit (fl_m f) i
           | UsesX => by_bit (fl_x f) i
           | NotVariable => i
           end in
  DInstr (di_label d) i (di_entry d) (di_cur d) (di_next d).

Definition di_with_label (s : string) (d : dinstr) : dinstr :=
  DInstr s (di_instr d) (di_entry d) (di_cur d) (di_next d).

(** nsasm/disassemble.cc:231-233.  A label whose address holds no instruction would create
    an entry with an uninitialised instruction; that is reported as undefined behaviour. *)
Fixpoint apply_labels (ls : omap string) (m : omap dinstr) : res (omap dinstr) :=
  match ls with
  | [] => Ok m
  | (a, s) :: ls' =>
      match om_find a m with
      | Some d => apply_labels ls' (om_set a (di_with_label s d) m)
      | None => UB UB_null
      end
  end.

(** nsasm/disassemble.cc:13-236. *)
Definition disassemble (fuel : nat) (src : source) (start : Z) (f : flags) (d : disassembler)
  : disassembler * res (omap flags) :=
  let w := DWork [] [] (om_set start (estate_of_flags f) []) [] (ds_sym d) in
  let entries := om_insert start tt (ds_entries d) in
  let (_, w) := get_label (ds_map d) w start in
  let (w', r) := disasm_loop fuel src (ds_rets d) (ds_map d) w in
  let failed := Disassembler entries (ds_map d) (ds_rets d) (dw_sym w') in
  match r with
  | Ok w =>
      let new := map (fun kv => (fst kv, add_suffix (snd kv))) (dw_new w) in
      let m := fold_left (fun m kv => om_set (fst kv) (snd kv) m) new (ds_map d) in
      match apply_labels (dw_labels w) m with
      | Ok m => (Disassembler entries m (ds_rets d) (dw_sym w), Ok (dw_far w))
      | Err e => (failed, Err e)
      | UB u => (failed, UB u)
      | OutOfFuel => (failed, OutOfFuel)
      end
  | Err e => (failed, Err e)
  | UB u => (failed, UB u)
  | OutOfFuel => (failed, OutOfFuel)
  end.

(** nsasm/disassemble.cc:241-254: rename labels in address order; also builds
    label_rewrite (a later entry for the same old label replaces the earlier one, so the
    list is built newest first). *)
Fixpoint rename_labels (entries : omap unit) (next_label next_entry : Z)
         (rw : list (string * string)) (m : omap dinstr)
  : list (string * string) * omap dinstr :=
  match m with
  | [] => (rw, [])
  | (a, d) :: m' =>
      if String.eqb (di_label d) "" then
        let (rw, r) := rename_labels entries next_label next_entry rw m' in (rw, (a, d) :: r)
      else
        let is_entry := om_mem a entries in
        let new_label := if is_entry then String.append "entry" (dec_string (next_entry + 1))
                         else String.append "label" (dec_string (next_label + 1)) in
        let (rw, r) :=
          rename_labels entries (if is_entry then next_label else next_label + 1)
                        (if is_entry then next_entry + 1 else next_entry)
                        ((di_label d, new_label) :: rw) m' in
        (rw, (a, DInstr new_label (di_instr d) is_entry (di_cur d) (di_next d)) :: r)
  end.

Definition di_with_instr (i : instr) (d : dinstr) : dinstr :=
  DInstr (di_label d) i (di_entry d) (di_cur d) (di_next d).

(** nsasm/disassemble.cc:256-261.  operator[] yields an empty string for an unknown label. *)
Definition rewrite_arg (rw : list (string * string)) (d : dinstr) : dinstr :=
  let i := di_instr d in
  if is_label (i_arg1 i) then
    let old := expr_opt_to_string (i_arg1 i) in
    let new := match assoc_string old rw with Some s => s | None => "" end in
    di_with_instr (i_with_arg1 (apply_label new (i_arg1 i)) i) d
  else d.

(** nsasm/disassemble.cc:315-325. *)
Definition ds_name_for_address (entries : omap unit) (m : omap dinstr) (a : Z)
  : option string :=
  if om_mem a entries then
    match om_find a m with
    | Some d => if String.eqb (di_label d) "" then None else Some (di_label d)
    | None => None
    end
  else None.

(** nsasm/disassemble.cc:264-279. *)
Definition name_far_target (entries : omap unit) (m : omap dinstr) (a : Z) (d : dinstr)
  : res dinstr :=
  let i := di_instr d in
  let* t := far_branch_target i a in
  Ok (match t with
      | None => d
      | Some target =>
          match ds_name_for_address entries m target with
          | None => d
          | Some n =>
              match i_mode i with
              | A_dir_l => di_with_instr (i_with_arg1 (Some (EId (FullId None n) T_long)) i) d
              | A_dir_w => di_with_instr (i_with_arg1 (Some (EId (FullId None n) T_word)) i) d
              | _ => d
              end
          end
      end).
Fixpoint name_far_targets (entries : omap unit) (m l : omap dinstr) : res (omap dinstr) :=
  match l with
  | [] => Ok []
  | (a, d) :: l' =>
      let* d' := name_far_target entries m a d in
      let* r := name_far_targets entries m l' in
      Ok ((a, d') :: r)
  end.

(** nsasm/disassemble.cc:281-310: the fusible pairs. *)
Definition fused_mnemonic (first second : mnemonic) : option mnemonic :=
  match first, second with
  | M_clc, M_adc => Some PM_add
  | M_sec, M_sbc => Some PM_sub
  | _, _ => None
  end.

(** nsasm/disassemble.cc:283-310.  After fusing, the loop looks at the fused entry again
    (it can not fuse further: its mnemonic is now ADD or SUB). *)
Fixpoint fold_pseudo (m : omap dinstr) : omap dinstr :=
  match m with
  | [] => []
  | (a, d) :: rest =>
      match rest with
      | [] => [(a, d)]
      | (b, d2) :: rest' =>
          match fused_mnemonic (i_mnem (di_instr d)) (i_mnem (di_instr d2)) with
          | Some pm =>
              if String.eqb (di_label d2) "" then
                let d' := DInstr (di_label d) (i_with_mnem pm (di_instr d2)) (di_entry d)
                                 (di_cur d) (di_next d2) in
                (a, d') :: fold_pseudo rest'
              else (a, d) :: fold_pseudo rest
          | None => (a, d) :: fold_pseudo rest
          end
      end
  end.

(** nsasm/disassemble.cc:238-313. *)
Definition cleanup (d : disassembler) : res disassembler :=
  let (rw, m) := rename_labels (ds_entries d) 0 0 [] (ds_map d) in
  let m := map (fun kv => (fst kv, rewrite_arg rw (snd kv))) m in
  let* m := name_far_targets (ds_entries d) m m in
  Ok (Disassembler (ds_entries d) (fold_pseudo m) (ds_rets d) (ds_sym d)).
