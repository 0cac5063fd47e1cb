(** ** When disassembling executes undefined behaviour.  Independent of the disassembler. *)
From Verif Require Import Base ModelNumeric ModelAddress ModelMap ModelState ModelRom SpecArith SpecInstr SpecState SpecDisasm.
Open Scope list_scope.
Open Scope Z_scope.

(** Flags that say of every bit that it is set, clear or not known: those that can be written in
    a file or on the command line. *)
Definition written_flags (f : flags) : Prop := fl_m f <> B_original /\ fl_x f <> B_original /\ fl_e f <> B_original.

(** The width of the accumulator, of the index registers, that a request states. *)
Definition states_m (f : flags) : Prop := exists b, known_bit (fl_m f) = Some b.
Definition states_x (f : flags) : Prop := exists b, known_bit (fl_x f) = Some b.

(** Control can lead from [a] to an address, by the bytes of the image alone: on to the next
    instruction, with any width of the operand if it is an immediate one, unless the instruction
    never goes on; or to the target of a relative branch. *)
Inductive leads_to (src : source) (a : Z) : Z -> Prop :=
| lt_start : leads_to src a a
| lt_next : forall pc op rest f n, leads_to src a pc -> src pc 4 = Ok (op :: rest) -> known_length f op = Some n ->
    in_names op ["jmp"; "rtl"; "rts"; "rti"; "stp"; "bra"; "brl"]%string = false -> leads_to src a (same_bank_plus pc n)
| lt_branch : forall pc op rest n t, leads_to src a pc -> src pc 4 = Ok (op :: rest) -> in_names op ["per"]%string = false ->
    branch_destination pc (firstn n (op :: rest)) = Some t -> leads_to src a t.

(** The image holds, at [pc], an instruction that pulls a register whose width one of the
    requests [q] leaves open: 68 is PLA, FA is PLX and 7A is PLY. *)
Definition pulls_open (src : source) (q : list (Z * flags)) (pc : Z) : Prop :=
  exists op rest, src pc 4 = Ok (op :: rest) /\
  (op = 0x68 /\ (exists b f, In (b, f) q /\ ~ states_m f) \/
   (op = 0xFA \/ op = 0x7A) /\ (exists b f, In (b, f) q /\ ~ states_x f)).

(** The same from a list of places to start at, and also by jumps and calls with a direct
    target. *)
Inductive flows_to (src : source) (seeds : omap flags) : Z -> Prop :=
| ft_seed : forall a f, In (a, f) seeds -> flows_to src seeds a
| ft_leads : forall a pc, flows_to src seeds a -> leads_to src a pc -> flows_to src seeds pc
| ft_jump : forall pc op rest t, flows_to src seeds pc -> src pc 4 = Ok (op :: rest) -> direct_target pc op rest = Some t -> flows_to src seeds t.
(** The image holds, at [pc], one of PLA, PLX and PLY. *)
Definition pulls (src : source) (pc : Z) : Prop := exists op rest, src pc 4 = Ok (op :: rest) /\ (op = 0x68 \/ op = 0xFA \/ op = 0x7A).
