(** The processor in a memory that holds an assembled program. *)
From Verif Require Import Base ModelExpr ModelMnemonic ModelAMode ModelState ModelInstr ModelStatement ModelModule
  ModelAssembler Spec65816 SpecArith SpecInstr SpecScope SpecLayout SpecState SpecAssemble SpecFlow SpecStable.
Open Scope list_scope.

(** Every byte that was written is in the memory.  What the memory holds elsewhere is left
    open.  The program does not overwrite itself. *)
Definition memory := Z -> Z.
Definition in_memory (ws : list write) (mem : memory) : Prop :=
  forall w k b, In w ws -> nth_error (snd w) k = Some b -> mem (same_bank_plus (fst w) (Z.of_nat k)) = b.
(** The bytes the processor fetches for the instruction at [pc], in its present modes. *)
Definition fetch_length (mem : memory) (pc : Z) (c : cpu) : Z :=
  cpu_length (mem pc) (p_m (c_modes c)) (p_x (c_modes c)).
Definition fetched (mem : memory) (pc : Z) (c : cpu) : list Z :=
  map (fun k => mem (same_bank_plus pc (Z.of_nat k))) (seq 0 (Z.to_nat (fetch_length mem pc c))).

(** [mem_arrives mem conv a f o pc c]: the processor starts at [a] in the state [o], of which
    [f] is true, and arrives at [pc] in the state [c].  Only the memory tells it what to do.
    Jumps lead out of the routine; a call at [pc] comes back and keeps the convention
    [conv pc]. *)
Definition performs (mem : memory) (conv : Z -> retconv) (pc : Z) (i : instr) : Prop :=
  mnem_to_string (i_mnem i) = op_name (mem pc) /\ i_ret i = conv pc.
Inductive mem_arrives (mem : memory) (conv : Z -> retconv) (a : Z) (f : flags) (o : cpu) : Z -> cpu -> Prop :=
| me_start : modes_ok (c_modes o) -> flags_describe (c_modes o) f (c_modes o) -> mem_arrives mem conv a f o a o
| me_next : forall pc c c' i, mem_arrives mem conv a f o pc c -> performs mem conv pc i -> ~ stops i ->
    mode_step o i (mem (same_bank_plus pc 1)) c c' ->
    mem_arrives mem conv a f o (same_bank_plus pc (fetch_length mem pc c)) c'
| me_branch : forall pc c c' i t, mem_arrives mem conv a f o pc c -> performs mem conv pc i -> relative_branch (i_mnem i) ->
    branch_destination pc (fetched mem pc c) = Some t -> branch_step i c c' -> mem_arrives mem conv a f o t c'.

(** Where the statements of a module are placed. *)
Definition stands (m : module) (k : nat) (pc : Z) : Prop := located (map ln_stmt (md_lines m)) k pc.

(** ** What the source has to promise. *)
(** No path runs into a .halt, and no branch leads to a constant. *)
Definition fenced (src : source) : Prop :=
  (forall k d, path src k -> stmt_at src k (SDir d) -> d_name d <> D_halt) /\
  (forall k i n ty t d, path src k -> stmt_at src k (SInstr i) -> relative_branch (i_mnem i) ->
     i_arg1 i = Some (EId (FullId None n) ty) -> denotes src (Z.of_nat k) n t -> stmt_at src (Z.to_nat t) (SDir d) -> d_name d <> D_equ).
(** What .mode says of the processor is true. *)
Definition modes_true (src : source) (o : cpu) : Prop :=
  forall k d c, arrives src o k c -> stmt_at src k (SDir d) -> d_name d = D_mode -> flags_describe (c_modes o) (d_flags d) (c_modes c).
(** Calls keep the convention written at the call. *)
Definition calls_true (src : source) (m : module) (conv : Z -> retconv) : Prop :=
  forall k i pc, stmt_at src k (SInstr i) -> stands m k pc -> conv pc = i_ret i.

(** The operands of REP and SEP are constants, and only calls have conventions. *)
Definition status_known (src : source) : Prop :=
  forall k i, stmt_at src k (SInstr i) -> In (i_mnem i) [M_rep; M_sep] -> exists e v, i_arg1 i = Some e /\ means (fun _ => None) e v.
Definition only_calls (mem : memory) (conv : Z -> retconv) : Prop :=
  forall pc, conv pc <> RC_default -> In (op_name (mem pc)) ["jsr"; "jsl"]%string.

(** The modes are analysed correctly (see C21): there are no loops, or no mode changes, or all
    immediate operands have a size suffix, or another round of the analysis changes nothing. *)
Definition suffixed (src : source) : Prop :=
  forall labels i, In (labels, SInstr i) src -> In (i_mode i) [A_imm_fm; A_imm_fx; A_imm_b; A_imm_w] ->
    accumulator_immediate (i_mnem i) \/ index_immediate (i_mnem i) -> i_suffix i <> S_none.
Definition predictable (src : source) (m : module) : Prop :=
  forward src \/ (exists f, steady f src) \/ suffixed src \/ stable src (md_lines m).

(** ** What the processor does then. *)
(** It is about to execute the statement [k] of the source: arriving there in that state is a
    way through the source, the opcode is that of the statement, and the processor takes as
    many bytes as were assembled for it.  ADD and SUB begin with CLC and SEC. *)
Definition opening (m : mnemonic) : mnemonic := match m with PM_add => M_clc | PM_sub => M_sec | m => m end.
Definition begins (src : source) (m : module) (mem : memory) (o : cpu) (k : nat) (i : instr) (pc : Z) (c : cpu) : Prop :=
  arrives src o k c /\ stmt_at src k (SInstr i) /\ stands m k pc /\
  op_name (mem pc) = mnem_to_string (opening (i_mnem i)) /\
  exists l, nth_error (md_lines m) k = Some l /\
    stmt_size (ln_stmt l) =
      if is_pseudo (i_mnem i) then 1 + fetch_length mem (same_bank_plus pc 1) c else fetch_length mem pc c.
(** It is in the middle of an ADD or SUB that it began in the state [c0]. *)
Definition continues (src : source) (m : module) (mem : memory) (o : cpu) (k : nat) (i : instr) (pc : Z) (c : cpu) : Prop :=
  exists a c0, begins src m mem o k i a c0 /\ is_pseudo (i_mnem i) = true /\ pc = same_bank_plus a 1 /\
    op_name (mem pc) = mnem_to_string (hardware_mnemonic (i_mnem i)) /\
    c_modes c = Modes (p_e (c_modes c0)) (p_m (c_modes c0)) (p_x (c_modes c0)) (mnem_eqb (i_mnem i) PM_sub) /\ c_stack c = c_stack c0.

(** ** Jumps and calls. *)
(** Where a jump or call leads whose address is part of the instruction: a 16-bit address is one
    in the bank of the instruction. *)
Definition jump_target (mem : memory) (pc : Z) : option Z :=
  let byte k := mem (same_bank_plus pc k) in
  if existsb (String.eqb (op_name (mem pc))) ["jmp"; "jsr"; "jsl"]%string then
    match op_form (mem pc) with
    | Abs => Some (bank_of pc * 2 ^ 16 + byte 2 * 2 ^ 8 + byte 1)
    | Lng => Some (byte 3 * 2 ^ 16 + byte 2 * 2 ^ 8 + byte 1)
    | _ => None
    end
  else None.
