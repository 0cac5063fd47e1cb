(** How execution moves through a source file. *)
From Verif Require Import Base ModelExpr ModelMnemonic ModelAMode ModelState ModelInstr ModelStatement SpecArith SpecScope SpecState.
Open Scope list_scope.

Definition stmt_at (src : source) (k : nat) (s : statement) : Prop := nth_error (map snd src) k = Some s.

(** Execution does not continue with the next statement. *)
Definition stops (i : instr) : Prop :=
  In (i_mnem i) [M_jmp; M_rtl; M_rts; M_rti; M_stp; M_bra; M_brl] \/ i_ret i = RC_noreturn.
(** [v] can be the operand: it is the value of a constant one. *)
Definition operand_value (i : instr) (v : Z) : Prop :=
  forall e w, i_arg1 i = Some e -> means (fun _ => None) e w -> v = w.

(** [arrives src o k c]: the routine was entered at some .entry in the state [o], and execution
    arrives at the statement [k] in the state [c].  It moves on to the next statement, or by a
    relative branch; jumps and calls lead to code with an .entry of its own (calls come back
    and keep the declared convention, see [mode_step]).  What .entry and .mode directives
    say of the processor is true. *)
Inductive arrives (src : source) (o : cpu) : nat -> cpu -> Prop :=
| ar_entry : forall k d, stmt_at src k (SDir d) -> d_name d = D_entry -> modes_ok (c_modes o) ->
    flags_describe (c_modes o) (d_flags d) (c_modes o) -> arrives src o (S k) o
| ar_next : forall k i v c c', arrives src o k c -> stmt_at src k (SInstr i) -> ~ stops i ->
    operand_value i v -> mode_step o i v c c' -> arrives src o (S k) c'
| ar_directive : forall k d c, arrives src o k c -> stmt_at src k (SDir d) -> d_name d <> D_halt ->
    (d_name d = D_mode -> flags_describe (c_modes o) (d_flags d) (c_modes c)) -> arrives src o (S k) c
| ar_branch : forall k i n ty t c c', arrives src o k c -> stmt_at src k (SInstr i) -> relative_branch (i_mnem i) ->
    i_arg1 i = Some (EId (FullId None n) ty) -> denotes src (Z.of_nat k) n t -> branch_step i c c' ->
    arrives src o (Z.to_nat t) c'.

(** The same, without the processor: there is a way from some .entry to the statement [k]. *)
Inductive path (src : source) : nat -> Prop :=
| pa_entry : forall k d, stmt_at src k (SDir d) -> d_name d = D_entry -> path src (S k)
| pa_next : forall k i, path src k -> stmt_at src k (SInstr i) -> ~ stops i -> path src (S k)
| pa_directive : forall k d, path src k -> stmt_at src k (SDir d) -> d_name d <> D_halt -> path src (S k)
| pa_branch : forall k i n ty t, path src k -> stmt_at src k (SInstr i) -> relative_branch (i_mnem i) ->
    i_arg1 i = Some (EId (FullId None n) ty) -> denotes src (Z.of_nat k) n t -> path src (Z.to_nat t).

(** What the analysis follows: the instructions of C18, an XCE only right after a CLC or SEC
    that leads nowhere else, and then in routines that say whether they run in emulation
    mode. *)
Definition tracked (src : source) : Prop :=
  (forall labels i, In (labels, SInstr i) src -> stack_untracked (i_mnem i) = false) /\
  (forall a labels i b, src = a ++ (labels, SInstr i) :: b -> i_mnem i = M_xce ->
     labels = [] /\
     (exists a' labels' j, a = a' ++ [(labels', SInstr j)] /\ In (i_mnem j) [M_clc; M_sec]) /\
     (forall labels d, In (labels, SDir d) src -> d_name d = D_entry -> fl_e (d_flags d) <> B_unknown)).

(** No branch leads backwards. *)
Definition forward (src : source) : Prop :=
  forall k i n ty t, stmt_at src k (SInstr i) -> relative_branch (i_mnem i) ->
    i_arg1 i = Some (EId (FullId None n) ty) -> denotes src (Z.of_nat k) n t -> Z.of_nat k < t.

(** Nothing in the module changes or leaves open the modes, which are those of [f]. *)
Definition steady (f : flags) (src : source) : Prop :=
  In (fl_e f) [B_on; B_off] /\ In (fl_m f) [B_on; B_off] /\ In (fl_x f) [B_on; B_off] /\
  (fl_e f = B_on -> fl_m f = B_on /\ fl_x f = B_on) /\
  (forall labels d, In (labels, SDir d) src -> d_name d <> D_mode /\
     (d_name d = D_entry -> fl_e (d_flags d) = fl_e f /\ fl_m (d_flags d) = fl_m f /\ fl_x (d_flags d) = fl_x f)) /\
  (forall labels i, In (labels, SInstr i) src -> ~ In (i_mnem i) [M_rep; M_sep; M_plp; M_xce] /\
     (forall g, i_ret i <> RC_yields g)).

(** Immediate operands whose width depends on the mode bits. *)
Definition accumulator_immediate (m : mnemonic) : Prop :=
  In m [M_adc; M_and; M_bit; M_cmp; M_eor; M_lda; M_ora; M_sbc; PM_add; PM_sub].
Definition index_immediate (m : mnemonic) : Prop := In m [M_cpx; M_cpy; M_ldx; M_ldy].
(** An instruction assembled with an immediate operand of one byte (two bytes) is executed by
    a processor that takes one byte (two bytes). *)
Definition immediate_fits (i : instr) (p : modes) : Prop :=
  (accumulator_immediate (i_mnem i) ->
     (i_mode i = A_imm_b -> p_m p = true) /\ (i_mode i = A_imm_w -> p_m p = false)) /\
  (index_immediate (i_mnem i) ->
     (i_mode i = A_imm_b -> p_x p = true) /\ (i_mode i = A_imm_w -> p_x p = false)).
