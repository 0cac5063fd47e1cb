(** The processor running a whole program, across its jumps and calls. *)
From Verif Require Import Base ModelExpr ModelMnemonic ModelAMode ModelState ModelInstr ModelStatement ModelModule ModelAssembler
  Spec65816 SpecArith SpecInstr SpecScope SpecLayout SpecState SpecAssemble SpecFlow SpecStable SpecRun.
Open Scope list_scope.
Open Scope Z_scope.

(** Nothing is assumed of the processor. *)
Definition blank : flags := RawFlags B_unknown B_unknown B_unknown B_unknown.
(** [enters mem conv a0 o0 a o]: the processor starts at [a0] in the state [o0], and by jumps and
    calls whose addresses are part of the instruction it comes to [a] in the state [o].  Between
    them it does what the memory says; a call that comes back keeps its convention.  What is on
    the stack when it enters is left open. *)
Inductive enters (mem : memory) (conv : Z -> retconv) (a0 : Z) (o0 : cpu) : Z -> cpu -> Prop :=
| en_start : enters mem conv a0 o0 a0 o0
| en_jump : forall a o pc c t o', enters mem conv a0 o0 a o -> mem_arrives mem conv a blank o pc c -> jump_target mem pc = Some t ->
    c_modes o' = c_modes c -> modes_ok (c_modes o') -> enters mem conv a0 o0 t o'.

(** No call has a convention. *)
Definition silent : Z -> retconv := fun _ => RC_default.
(** Module [m] of the program was read from file [n] as [src]. *)
Definition part (files : list (list string)) (a : assembler) (n : nat) (src : source) (m : module) : Prop :=
  exists file, nth_error files n = Some file /\ nth_error (as_mods a) n = Some m /\ SpecScope.reads file src.
(** An .entry stands at [t], and what it says is true in the state [o]. *)
Definition opens (files : list (list string)) (a : assembler) (t : Z) (o : cpu) : Prop :=
  exists n src m k d, part files a n src m /\ stmt_at src k (SDir d) /\ d_name d = D_entry /\ stands m k t /\
    flags_describe (c_modes o) (d_flags d) (c_modes o).
(** Wherever the jump or call at [k] leads, if its address is part of it, an .entry stands that
    is true. *)
Definition leads_well (files : list (list string)) (a : assembler) (mem : memory) (o : cpu) : Prop :=
  forall n src m k i pc c t o', part files a n src m -> arrives src o k c -> stmt_at src k (SInstr i) -> stands m k pc ->
    jump_target mem pc = Some t -> c_modes o' = c_modes c -> opens files a t o'.

(** The same said of the source.  Every jump or call that can be reached, unless it is indirect,
    names a label of its module, either on an .entry or on the instruction after one, and what
    the .entry says is true when the jump is taken.  It has a 24-bit address, or the label is in its
    bank. *)
Definition jumps_to_entries (src : source) (m : module) (o : cpu) : Prop :=
  forall k i c l i' pc, arrives src o k c -> stmt_at src k (SInstr i) -> In (i_mnem i) [M_jmp; M_jsr; M_jsl] ->
    nth_error (md_lines m) k = Some l -> ln_stmt l = SInstr i' -> In (i_mode i') [A_dir_w; A_dir_l] -> stands m k pc ->
    exists nm ty t d adr, i_arg1 i = Some (EId (FullId None nm) ty) /\ denotes src (Z.of_nat k) nm t /\ stands m (Z.to_nat t) adr /\
      (i_mode i' = A_dir_l \/ bank_of adr = bank_of pc) /\
      (exists e, stmt_at src e (SDir d) /\ d_name d = D_entry /\ (Z.to_nat t = e \/ Z.to_nat t = S e /\ exists j, stmt_at src (S e) (SInstr j))) /\
      flags_describe (c_modes c) (d_flags d) (c_modes c).
