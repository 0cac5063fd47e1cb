(** What tracked processor states mean, and the processor's effect on mode bits and stack.
    Independent of the analysis: only the syntax of states and instructions is shared. *)
From Verif Require Import Base ModelMnemonic ModelAMode ModelState ModelInstr.

(** ** Consistency: emulation mode forces m = x = 1, so m and x can be off only when the
    processor is known to be native, and "as on entry" only together with e. *)
Definition width_consistent (e w : bitstate) : Prop :=
  match e with
  | B_on => w = B_on
  | B_off => True
  | B_original => w <> B_off
  | B_unknown => w = B_on \/ w = B_unknown
  end.
Definition consistent (f : flags) : Prop :=
  width_consistent (fl_e f) (fl_m f) /\ width_consistent (fl_e f) (fl_x f).

(** The flag states that can be produced by the operations of StatusFlags. *)
Inductive produced : flags -> Prop :=
| pr_new : forall e m x c, produced (mk_flags e m x c)
| pr_m : forall f b, produced f -> produced (set_m b f)
| pr_x : forall f b, produced f -> produced (set_x b f)
| pr_c : forall f b, produced f -> produced (set_c b f)
| pr_in : forall f, produced f -> produced (set_incoming f)
| pr_xce : forall f, produced f -> produced (exchange_ce f)
| pr_merge : forall f g, produced f -> produced g -> produced (flags_merge f g).

(** Consistency of stacks and whole states. *)
Definition slot_consistent (v : stackval) : Prop :=
  match v with SV_flags f => consistent f | _ => True end.
Definition stack_consistent (k : stack) : Prop :=
  match k with Abandoned => True | Live l => forall v, In v l -> slot_consistent v end.
Definition es_consistent (s : estate) : Prop :=
  consistent (es_flags s) /\ stack_consistent (es_stack s).

(** ** Concrete processor. *)
Record modes := Modes { p_e : bool; p_m : bool; p_x : bool; p_c : bool }.
(** The top of the stack is the head of the list. *)
Record cpu := Cpu {
  c_modes : modes; c_a : Z; c_xr : Z; c_yr : Z; c_dbr : Z; c_stack : list Z }.

(** In emulation mode the width bits are 1. *)
Definition modes_ok (p : modes) : Prop := p_e p = true -> p_m p = true /\ p_x p = true.

(** ** Description.  [o] is the processor state on entry, to which "original" refers. *)
Definition bit_describes (orig : bool) (b : bitstate) (v : bool) : Prop :=
  match b with
  | B_on => v = true
  | B_off => v = false
  | B_original => v = orig
  | B_unknown => True
  end.
Definition flags_describe (o : modes) (f : flags) (p : modes) : Prop :=
  bit_describes (p_e o) (fl_e f) (p_e p) /\ bit_describes (p_m o) (fl_m f) (p_m p) /\
  bit_describes (p_x o) (fl_x f) (p_x p) /\ bit_describes (p_c o) (fl_c f) (p_c p).

(** A register: all of it when wide, its low byte when narrow. *)
Definition reg_describes (orig : Z) (narrow : bool) (r : regval) (v : Z) : Prop :=
  match r with
  | RV_unknown => True
  | RV_original => v = orig
  | RV_value n => if narrow then v mod 2 ^ 8 = n else v = n
  end.

(** A status byte on the stack: bits 5, 4 and 0 are m, x and c. *)
Definition status_byte (p : modes) (b : Z) : Prop :=
  Z.testbit b 5 = p_m p /\ Z.testbit b 4 = p_x p /\ Z.testbit b 0 = p_c p.

Definition orig_reg (o : cpu) (t : treg) : Z :=
  match t with R_a => c_a o | R_x => c_xr o | R_y => c_yr o end.
Definition orig_narrow (o : cpu) (t : treg) : bool :=
  match t with R_a => p_m (c_modes o) | _ => p_x (c_modes o) end.
(** A register as pushed: low byte on top. *)
Definition reg_bytes (narrow : bool) (v : Z) : list Z :=
  if narrow then [v mod 2 ^ 8] else [v mod 2 ^ 8; v / 2 ^ 8].

(** Bytes described by one stack slot. *)
Inductive slot_describes (o : cpu) : stackval -> list Z -> Prop :=
| sd_unknown : forall b, slot_describes o SV_unknown [b]
| sd_byte : forall b, slot_describes o (SV_byte b) [b]
| sd_flags : forall f p b, modes_ok p -> flags_describe (c_modes o) f p -> status_byte p b ->
    slot_describes o (SV_flags f) [b]
| sd_hi : forall t, slot_describes o (SV_hi t) [orig_reg o t / 2 ^ 8]
| sd_lo : forall t, slot_describes o (SV_lo t) [orig_reg o t mod 2 ^ 8]
| sd_var_orig : forall t,
    slot_describes o (SV_var t true) (reg_bytes (orig_narrow o t) (orig_reg o t))
| sd_var : forall t v,
    slot_describes o (SV_var t false) (reg_bytes (orig_narrow o t) v)
| sd_dbr : slot_describes o SV_dbr [c_dbr o].

(** The slots describe the topmost bytes; an abandoned stack says nothing. *)
Inductive slots_describe (slot : stackval -> list Z -> Prop) : list stackval -> list Z -> Prop :=
| ss_nil : forall rest, slots_describe slot [] rest
| ss_cons : forall v l bs rest, slot v bs -> slots_describe slot l rest ->
    slots_describe slot (v :: l) (bs ++ rest)%list.
Definition stack_describes (slot : stackval -> list Z -> Prop) (k : stack) (bytes : list Z) : Prop :=
  match k with Abandoned => True | Live l => slots_describe slot l bytes end.

Definition describes (o : cpu) (s : estate) (c : cpu) : Prop :=
  flags_describe (c_modes o) (es_flags s) (c_modes c) /\
  reg_describes (c_a o) (p_m (c_modes c)) (es_a s) (c_a c) /\
  reg_describes (c_xr o) (p_x (c_modes c)) (es_xr s) (c_xr c) /\
  reg_describes (c_yr o) (p_x (c_modes c)) (es_yr s) (c_yr c) /\
  reg_describes (c_dbr o) true (es_dbr s) (c_dbr c) /\
  stack_describes (slot_describes o) (es_stack s) (c_stack c).

(** The part of a description that decides operand widths: mode bits, and the status bytes
    on the stack (other slots only count bytes). *)
Inductive slot_modes (o : cpu) : stackval -> list Z -> Prop :=
| sm_flags : forall f p b, modes_ok p -> flags_describe (c_modes o) f p -> status_byte p b ->
    slot_modes o (SV_flags f) [b]
| sm_var : forall t orig v, slot_modes o (SV_var t orig) (reg_bytes (orig_narrow o t) v)
| sm_one : forall v b, is_varsize v = false -> (forall f, v <> SV_flags f) -> slot_modes o v [b].
Definition describes_modes (o : cpu) (s : estate) (c : cpu) : Prop :=
  flags_describe (c_modes o) (es_flags s) (c_modes c) /\
  stack_describes (slot_modes o) (es_stack s) (c_stack c).

(** ** The processor's effect on mode bits and stack when execution continues with the next
    instruction.  [v] is the operand with which the instruction is assembled.  Calls (JSR,
    JSL, BRK, COP) include the callee, which is taken to keep its declared convention.
    Stores are taken not to overwrite the stack. *)
Definition carry_changed (p p' : modes) : Prop :=
  exists c, p' = Modes (p_e p) (p_m p) (p_x p) c.

Definition modes_step (o : modes) (i : instr) (v : Z) (p p' : modes) : Prop :=
  match i_mnem i with
  | M_sec => p' = Modes (p_e p) (p_m p) (p_x p) true
  | M_clc => p' = Modes (p_e p) (p_m p) (p_x p) false
  | M_bcc => p_c p = true /\ p' = p          (* not taken *)
  | M_bcs => p_c p = false /\ p' = p
  | M_rep => p' = Modes (p_e p) (if Z.testbit v 5 then p_e p else p_m p)
                        (if Z.testbit v 4 then p_e p else p_x p)
                        (if Z.testbit v 0 then false else p_c p)
  | M_sep => p' = Modes (p_e p) (Z.testbit v 5 || p_m p) (Z.testbit v 4 || p_x p)
                        (Z.testbit v 0 || p_c p)
  | M_xce => p' = Modes (p_c p) (p_c p || p_m p) (p_c p || p_x p) (p_e p)
  | M_adc | M_sbc | PM_add | PM_sub | M_asl | M_lsr | M_rol | M_ror | M_cmp | M_cpx | M_cpy =>
      carry_changed p p'
  | M_jmp | M_jsl | M_jsr | M_brk | M_cop =>
      match i_ret i with
      | RC_default => carry_changed p p'
      | RC_yields f => modes_ok p' /\ flags_describe o f p'
      | RC_noreturn => False
      end
  | _ => p' = p
  end.

(** Bytes moved. *)
Definition pushes (n : nat) (k k' : list Z) : Prop :=
  exists bs, List.length bs = n /\ k' = (bs ++ k)%list.
Definition width (narrow : bool) : nat := if narrow then 1%nat else 2%nat.

(** One instruction that falls through. *)
Definition mode_step (o : cpu) (i : instr) (v : Z) (c c' : cpu) : Prop :=
  let p := c_modes c in let k := c_stack c in
  let p' := c_modes c' in let k' := c_stack c' in
  match i_mnem i with
  | M_plp => exists b, k = b :: k' /\
      p' = Modes (p_e p) (p_e p || Z.testbit b 5) (p_e p || Z.testbit b 4) (Z.testbit b 0)
  | m =>
      modes_step (c_modes o) i v p p' /\
      match m with
      | M_php => exists b, status_byte p b /\ k' = b :: k
      | M_pha => k' = (reg_bytes (p_m p) (c_a c) ++ k)%list
      | M_phx => k' = (reg_bytes (p_x p) (c_xr c) ++ k)%list
      | M_phy => k' = (reg_bytes (p_x p) (c_yr c) ++ k)%list
      | M_phb | M_phk => pushes 1 k k'
      | M_phd | M_pea | M_pei | M_per => pushes 2 k k'
      | M_pla => pushes (width (p_m p)) k' k
      | M_plx | M_ply => pushes (width (p_x p)) k' k
      | M_plb => pushes 1 k' k
      | M_pld => pushes 2 k' k
      | M_tcs | M_txs => True                (* the stack pointer is replaced *)
      | _ => k' = k
      end
  end.

(** A taken branch. *)
Definition branch_step (i : instr) (c c' : cpu) : Prop :=
  c_modes c' = c_modes c /\ c_stack c' = c_stack c /\
  match i_mnem i with
  | M_bcc => p_c (c_modes c) = false
  | M_bcs => p_c (c_modes c) = true
  | _ => True
  end.

(** Instructions whose stack effect the analysis does not follow. *)
Definition stack_untracked (m : mnemonic) : bool :=
  match m with M_phb | M_phd | M_phk | M_plb | M_pld | M_tcs | M_txs => true | _ => false end.

(** The relative branches. *)
Definition relative_branch (m : mnemonic) : Prop :=
  In m [M_bcc; M_bcs; M_beq; M_bmi; M_bne; M_bpl; M_bra; M_brl; M_bvc; M_bvs].

(** LDA from memory: any byte or word may be loaded; in 8-bit mode the high byte stays. *)
Definition load_step (c c' : cpu) : Prop :=
  exists w, 0 <= w < 2 ^ 16 /\
    c' = Cpu (c_modes c)
             (if p_m (c_modes c) then 2 ^ 8 * (c_a c / 2 ^ 8) + w mod 2 ^ 8 else w)
             (c_xr c) (c_yr c) (c_dbr c) (c_stack c).

(** ** Registers that can be pushed, and the width bit that governs each. *)
Definition push_of (t : treg) : estate -> estate :=
  match t with R_a => push_a | R_x => push_x | R_y => push_y end.
Definition pull_of (t : treg) : estate -> res estate :=
  match t with R_a => pull_a | R_x => pull_x | R_y => pull_y end.
Definition value_of (t : treg) (s : estate) : regval :=
  match t with R_a => es_a s | R_x => es_xr s | R_y => es_yr s end.
Definition width_of (t : treg) (s : estate) : bitstate :=
  match t with R_a => fl_m (es_flags s) | _ => fl_x (es_flags s) end.
