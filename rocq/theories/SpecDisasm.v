(** What a disassembly should contain. *)
From Verif Require Import Base ModelNumeric ModelExpr ModelMnemonic ModelAMode ModelState ModelInstr ModelMap ModelRom ModelDisasm
  SpecArith SpecInstr SpecState SpecFlow Spec65816.
Open Scope list_scope.
Open Scope Z_scope.

(** A disassembler at work: return conventions are given once, then any number of requests is
    made; [q] are the ones that succeeded. *)
Definition convention_ok (r : retconv) : Prop := match r with RC_yields f => consistent f | _ => True end.
Inductive session (src : source) (rets : omap retconv) : list (Z * flags) -> disassembler -> Prop :=
| se_new : session src rets [] (add_target_return_conventions rets new_disassembler)
| se_request : forall q d fuel a f d' r, session src rets q d -> addr24 a -> consistent f ->
    disassemble fuel src a f d = (d', r) ->
    session src rets (match r with Ok _ => (a, f) :: q | _ => q end) d'.
Definition conventions_ok (rets : omap retconv) : Prop := forall t r, om_find t rets = Some r -> convention_ok r.
Definition collected (d : disassembler) (pc : Z) (c : dinstr) : Prop := om_find pc (ds_map d) = Some c.
(** The image yields bytes. *)
Definition byte_source (src : source) : Prop := forall a n l, src a n = Ok l -> bytes_ok l.

(** [t] says nothing that [s] does not say. *)
Definition covers (t s : estate) : Prop := forall o c, modes_ok (c_modes c) -> describes o s c -> describes o t c.
(** [i] shows the decoded instruction [j]: only the operand of a relative branch is replaced,
    by the label [l]. *)
Definition shows (l : string) (i j : instr) : Prop :=
  i_mnem i = i_mnem j /\ i_mode i = i_mode j /\ i_arg2 i = i_arg2 j /\
  (relative_branch (i_mnem j) -> exists e, i_arg1 j = Some e /\ i_arg1 i = Some (ELabel l e)) /\
  (~ relative_branch (i_mnem j) -> i_arg1 i = i_arg1 j).
(** The bytes of the instruction at [pc]. *)
Definition bytes_at (src : source) (pc : Z) (i : instr) (b : list Z) : Prop :=
  exists l, src pc 4 = Ok l /\ b = firstn (Z.to_nat (instruction_length (i_mode i))) l.

(** The processor takes a branch in these modes. *)
Definition may_take (m : mnemonic) (p : modes) : Prop :=
  match m with M_bcc => p_c p = false | M_bcs => p_c p = true | _ => True end.

(** Control leads from the requests [q] to an address: to the next instruction, or by a relative
    branch, of the instructions that were collected. *)
Inductive control (src : source) (d : disassembler) (q : list (Z * flags)) : Z -> Prop :=
| co_request : forall a f, In (a, f) q -> control src d q a
| co_next : forall a c, control src d q a -> collected d a c -> ~ stops (di_instr c) ->
    control src d q (same_bank_plus a (instruction_length (i_mode (di_instr c))))
| co_branch : forall a c b t, control src d q a -> collected d a c -> relative_branch (i_mnem (di_instr c)) ->
    bytes_at src a (di_instr c) b -> branch_destination a b = Some t -> control src d q t.

(** ** Execution of the image. *)
Definition in_names (op : Z) (l : list string) : bool := existsb (String.eqb (op_name op)) l.
(** The address a jump or call at [pc] leads to, if it is part of the instruction. *)
Definition direct_target (pc op : Z) (rest : list Z) : option Z :=
  match op_form op, rest with
  | Abs, lo :: hi :: _ =>
      if in_names op ["jmp"; "jsr"] then Some (bank_of pc * 2 ^ 16 + hi * 2 ^ 8 + lo) else None
  | Lng, lo :: hi :: b :: _ =>
      if in_names op ["jmp"; "jsl"] then Some (b * 2 ^ 16 + hi * 2 ^ 8 + lo) else None
  | _, _ => None
  end%string.
(** The convention of the routine that the instruction calls. *)
Definition convention (rets : omap retconv) (pc op : Z) (rest : list Z) : retconv :=
  match direct_target pc op rest with
  | Some t =>
      if in_names op ["jsr"; "jsl"]
      then match om_find t rets with Some r => r | None => RC_default end else RC_default
  | None => RC_default
  end%string.
(** [i] is the instruction with opcode [op], with the given convention if it is a call. *)
Definition executes (rets : omap retconv) (pc op : Z) (rest : list Z) (i : instr) : Prop :=
  mnem_to_string (i_mnem i) = op_name op /\ i_ret i = convention rets pc op rest.

(** [rom_arrives src rets a f o pc c]: the routine at [a] is entered in the state [o], of which
    [f] is true, and the processor arrives at [pc] in the state [c].  It fetches as many bytes
    as its modes demand.  Jumps lead out of the routine; calls come back and keep their
    convention. *)
Inductive rom_arrives (src : source) (rets : omap retconv) (a : Z) (f : flags) (o : cpu) : Z -> cpu -> Prop :=
| ro_start : modes_ok (c_modes o) -> flags_describe (c_modes o) f (c_modes o) -> rom_arrives src rets a f o a o
| ro_next : forall pc c c' op rest i, rom_arrives src rets a f o pc c -> src pc 4 = Ok (op :: rest) ->
    executes rets pc op rest i -> ~ stops i -> mode_step o i (nth 0 rest 0) c c' ->
    rom_arrives src rets a f o (same_bank_plus pc (cpu_length op (p_m (c_modes c)) (p_x (c_modes c)))) c'
| ro_branch : forall pc c c' op rest i t, rom_arrives src rets a f o pc c -> src pc 4 = Ok (op :: rest) ->
    executes rets pc op rest i -> relative_branch (i_mnem i) ->
    branch_destination pc (firstn (Z.to_nat (cpu_length op (p_m (c_modes c)) (p_x (c_modes c)))) (op :: rest)) = Some t ->
    branch_step i c c' -> rom_arrives src rets a f o t c'.

(** What the analysis follows (see C18). *)
Definition followed (d : disassembler) : Prop :=
  forall pc c, collected d pc c -> stack_untracked (i_mnem (di_instr c)) = false /\
    (i_mnem (di_instr c) = M_xce -> fl_e (es_flags (di_cur c)) <> B_original /\ fl_c (es_flags (di_cur c)) <> B_original).
