(** What the tools of util/ should show. *)
From Verif Require Import Base ModelNumeric ModelExpr ModelMnemonic ModelAMode ModelState ModelInstr ModelMap ModelRom ModelDisasm
  SpecArith SpecInstr SpecState SpecFlow Spec65816 SpecDisasm.
Open Scope list_scope.
Open Scope Z_scope.

(** Addresses with modes, as given on the command line. *)
Definition seeds_ok (m : omap flags) : Prop := forall a f, In (a, f) m -> addr24 a /\ consistent f.

(** Control leads from the seeds to an address: to the next instruction, by a relative branch, or
    by a jump or call with a direct target, of the instructions that were collected. *)
Inductive program_control (src : source) (d : disassembler) (seeds : omap flags) : Z -> Prop :=
| pc_seed : forall a f, In (a, f) seeds -> program_control src d seeds a
| pc_next : forall a c, program_control src d seeds a -> collected d a c -> ~ stops (di_instr c) ->
    program_control src d seeds (same_bank_plus a (instruction_length (i_mode (di_instr c))))
| pc_branch : forall a c b t, program_control src d seeds a -> collected d a c -> relative_branch (i_mnem (di_instr c)) ->
    bytes_at src a (di_instr c) b -> branch_destination a b = Some t -> program_control src d seeds t
| pc_jump : forall a c op rest t, program_control src d seeds a -> collected d a c -> src a 4 = Ok (op :: rest) ->
    direct_target a op rest = Some t -> program_control src d seeds t.

(** Nothing is said about the modes in which a routine is entered. *)
Definition any_flags : flags := RawFlags B_unknown B_unknown B_unknown B_unknown.
(** [program_enters src seeds a o]: the program is started at a seed, in a state of which its
    modes are true, and enters the routine at [a], by jumps and calls with a direct target, in
    the state [o].  Calls come back with the modes with which they were entered. *)
Inductive program_enters (src : source) (seeds : omap flags) : Z -> cpu -> Prop :=
| pe_seed : forall a f o, In (a, f) seeds -> modes_ok (c_modes o) -> flags_describe (c_modes o) f (c_modes o) ->
    program_enters src seeds a o
| pe_far : forall a o pc k op rest t k', program_enters src seeds a o -> rom_arrives src [] a any_flags o pc k ->
    src pc 4 = Ok (op :: rest) -> direct_target pc op rest = Some t -> c_modes k' = c_modes k ->
    program_enters src seeds t k'.
